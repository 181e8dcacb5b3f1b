(** Specification of file names, modes and terminals (C33, C34, C35). *)
From Coq.Strings Require Import Byte String.
From Coq Require Import List NArith Bool PeanoNat.
From Verif Require Import Base Text Util CliErrors Getopts Crypto HeaderCrypto Ui CliSpec Paths Cli.
Import ListNotations.
Local Open Scope N_scope.

(** ** Names *)

(** A file name proper. *)
Definition name_ok (n : text) : Prop := n <> [] /\ n <> [46] /\ n <> [46; 46] /\ ~ In 47 n.
(** The path of the file [n] in the directory [d]. *)
Definition is_file (p d : path) (n : text) : Prop := p = d ++ [Normal n].
Definition ends_in_dot (n : text) : Prop := exists a, n = a ++ [46].
(** A dot besides one at the beginning. *)
Definition has_inner_dot (n : text) : Prop := exists a b, a <> [] /\ n = a ++ 46 :: b.
Definition starts_with_two_dots (n : text) : Prop := exists a, n = 46 :: 46 :: a.

(** ** Modes *)

(** The options of a command line that has each in an argument of its own. *)
Inductive lists : list text -> list (opt * option text) -> Prop :=
| li_nil : lists [] []
| li_opt o v arg args os : spelled o v arg -> lists args os -> lists (arg ++ args) ((o, v) :: os)
| li_free a args os : (forall a', a = 45 :: a' -> a' = []) -> lists args os -> lists (a :: args) os
| li_end args : lists ([45; 45] :: args) [].

Definition mode_of (o : opt) : option operation_mode :=
  match o with
  | OEncrypt => Some (MCrypt Encrypt)
  | ODecrypt => Some (MCrypt Decrypt)
  | OGenKeypair => Some MGenerateKeypair
  | OHelp => Some MHelp
  | OVersion => Some MVersion
  | _ => None
  end.
(** The last mode in a list of options. *)
Definition last_mode (os : list opt) : operation_mode :=
  fold_left (fun mode o => match mode_of o with Some mode => mode | None => mode end) os (MCrypt Encrypt).

Definition performs (c : command) (mode : operation_mode) : Prop :=
  match c, mode with
  | CryptStreams _ _ _ (DoEncrypt _ _), MCrypt Encrypt => True
  | CryptStreams _ _ _ (DoDecrypt _), MCrypt Decrypt => True
  | GenerateKeyPair _ _, MGenerateKeypair => True
  | Help, MHelp => True
  | Version, MVersion => True
  | _, _ => False
  end.

(** ** Terminals *)

(** The command writes ciphertext to standard output; it reads ciphertext from standard input. *)
Definition ciphertext_to_stdout (c : command) : Prop :=
  exists streams policy force cr fast s, c = CryptStreams streams policy force (DoEncrypt cr fast) /\ In s streams /\ s_output s = Ok OStdout.
Definition ciphertext_from_stdin (c : command) : Prop :=
  exists streams policy force cs s, c = CryptStreams streams policy force (DoDecrypt cs) /\ In s streams /\ s_input s = IStdin.
(** The command reads or writes any data on the standard streams. *)
Definition data_on_stdin (c : command) : Prop :=
  exists streams policy force d s, c = CryptStreams streams policy force d /\ In s streams /\ s_input s = IStdin.
Definition data_on_stdout (c : command) : Prop :=
  exists streams policy force d s, c = CryptStreams streams policy force d /\ In s streams /\ s_output s = Ok OStdout.

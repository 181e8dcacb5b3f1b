(** Specification of the command line syntax (C68): the options as documented, and how they are written. *)
From Coq.Strings Require Import Byte String.
From Coq Require Import List NArith Bool.
From Verif Require Import Base Text Util CliErrors Getopts.
Import ListNotations.
Local Open Scope N_scope.

(** With a value or without; several times or at most once. *)
Inductive kind := Flag | FlagMulti | Value | ValueMulti.
(** The documentation of the options in cli/options.rs:5-139: short name (or none), long name, kind. *)
Definition documented (o : opt) : string * string * kind :=
  match o with
  | OEncrypt => ("e", "encrypt", Flag)
  | ODecrypt => ("d", "decrypt", Flag)
  | OGenKeypair => ("g", "gen-keypair", Flag)
  | OHelp => ("h", "help", Flag)
  | OVersion => ("V", "version", Flag)
  | OVerbose => ("v", "verbose", FlagMulti)
  | OQuiet => ("q", "quiet", FlagMulti)
  | OForce => ("f", "force", Flag)
  | OFast => ("", "fast", Flag)
  | OKeepInputs => ("K", "keep-inputs", Flag)
  | ODiscardInputs => ("D", "discard-inputs", Flag)
  | OStream => ("s", "stream", Flag)
  | OSuffix => ("S", "suffix", Value)
  | OPassword => ("p", "password", FlagMulti)
  | OPasswordNamed => ("", "password-named", ValueMulti)
  | OPasswordFile => ("", "password-file", ValueMulti)
  | OPublicKey => ("", "public-key", ValueMulti)
  | OPublicKeyText => ("", "public-key-text", ValueMulti)
  | OPrivateKey => ("", "private-key", ValueMulti)
  | OSymmetricKey => ("", "symmetric-key", ValueMulti)
  | OKeyThreshold => ("t", "key-threshold", ValueMulti)
  | ORequireAllKeys => ("a", "require-all-keys", FlagMulti)
  | OKeyShares => ("", "key-shares", ValueMulti)
  | OStartGroup => ("(", "start-group", FlagMulti)
  | OEndGroup => (")", "end-group", FlagMulti)
  end%string.
Definition takes_value (o : opt) : Prop := match snd (documented o) with Value | ValueMulti => True | _ => False end.
Definition only_once (o : opt) : Prop := match snd (documented o) with Value | Flag => True | _ => False end.
(** The option with this letter. *)
Definition letter (o : opt) (c : char) : Prop := lit (fst (fst (documented o))) = [c].
(** The option with this name after two dashes: its long name, or its letter. *)
Definition called (o : opt) (name : text) : Prop := name = lit (snd (fst (documented o))) \/ exists c, letter o c /\ name = [c].
(** Flags that are written with these letters. *)
Definition flags (os : list opt) (letters : text) : Prop := Forall2 (fun o c => letter o c /\ ~ takes_value o) os letters.
(** No option: does not begin with a dash, or is just a dash. *)
Definition is_word (a : text) : Prop := forall a', a = 45 :: a' -> a' = [].

(** One or two arguments that belong together, the options they give (all with the number [pos]) and the other
    arguments. *)
Inductive item (pos : nat) : list text -> list occurrence -> list text -> Prop :=
| it_word w : is_word w -> item pos [w] [] [w]
  (* [--name] *)
| it_long o name : called o name -> ~ takes_value o -> item pos [lit "--" ++ name] [mkOcc pos o None] []
  (* [--name=value], [--name value] *)
| it_long_equals o name v : called o name -> takes_value o -> item pos [lit "--" ++ name ++ lit "=" ++ v] [mkOcc pos o (Some v)] []
| it_long_next o name v : called o name -> takes_value o -> item pos [lit "--" ++ name; v] [mkOcc pos o (Some v)] []
  (* [-abc] *)
| it_short os letters : flags os letters -> os <> [] -> item pos [lit "-" ++ letters] (map (fun o => mkOcc pos o None) os) []
  (* [-abcVALUE], [-abc VALUE] *)
| it_short_attached os letters o c v : flags os letters -> letter o c -> takes_value o -> v <> [] ->
    item pos [lit "-" ++ letters ++ c :: v] (map (fun o => mkOcc pos o None) os ++ [mkOcc pos o (Some v)]) []
| it_short_next os letters o c v : flags os letters -> letter o c -> takes_value o ->
    item pos [lit "-" ++ letters ++ [c]; v] (map (fun o => mkOcc pos o None) os ++ [mkOcc pos o (Some v)]) [].

(** The arguments, from number [pos] on, mean these options and these other arguments.  A value in an argument of
    its own is not counted. *)
Inductive means : nat -> list text -> list occurrence -> list text -> Prop :=
| rd_end pos : means pos [] [] []
  (* after [--] there are no options *)
| rd_stop pos rest : means pos (lit "--" :: rest) [] rest
| rd_item pos args o f rest occs free : item pos args o f -> means (S pos) rest occs free -> means pos (args ++ rest) (o ++ occs) (f ++ free).

(** How often an option occurs. *)
Definition times (o : opt) (occs : list occurrence) : nat := length (filter (fun x => if opt_eq_dec (o_opt x) o then true else false) occs).

(** The first of these arguments is wrong. *)
Inductive wrong : list text -> cerr -> Prop :=
  (* no option has this name *)
| wr_long name args : name <> [] -> ~ In 61 name -> (forall o, ~ called o name) -> wrong ((lit "--" ++ name) :: args) CUnrecognizedOption
| wr_long_equals name v args : ~ In 61 name -> (forall o, ~ called o name) -> wrong ((lit "--" ++ name ++ lit "=" ++ v) :: args) CUnrecognizedOption
  (* no option has this letter *)
| wr_short os letters c rest args : flags os letters -> (forall o, ~ letter o c) -> (letters = [] -> c <> 45) ->
    wrong ((lit "-" ++ letters ++ c :: rest) :: args) CUnrecognizedOption
  (* a flag with a value *)
| wr_value o name v args : called o name -> ~ takes_value o -> wrong ((lit "--" ++ name ++ lit "=" ++ v) :: args) CUnexpectedArgument
  (* the value is missing *)
| wr_long_last o name : called o name -> takes_value o -> wrong [lit "--" ++ name] CArgumentMissing
| wr_short_last os letters o c : flags os letters -> letter o c -> takes_value o -> wrong [lit "-" ++ letters ++ [c]] CArgumentMissing.
(** The first arguments can be read; then there is a wrong one. *)
Inductive goes_wrong : list text -> cerr -> Prop :=
| gw_here args e : wrong args e -> goes_wrong args e
| gw_later pos args o f rest e : item pos args o f -> goes_wrong rest e -> goes_wrong (args ++ rest) e.

(** What C75 says about the options -q and -v: what may appear on the terminal of a run that is to be quiet. *)
From Coq.Strings Require Import Byte String.
From Coq Require Import List NArith ZArith Bool.
From Verif Require Import Base Text Util CliErrors Getopts Ui OptSpec.
Import ListNotations.
Local Open Scope N_scope.

(** The run was told to be quiet this many times more than to be verbose (-q and -v, README, getopts help). *)
Definition quietness (occs : list occurrence) : Z := (Z.of_nat (times OQuiet occs) - Z.of_nat (times OVerbose occs))%Z.

(** An error message. *)
Definition error_event (e : event) : Prop := exists x, e = Printed (MError x).

(** What belongs to asking for a password: the questions, the replies, the remarks on them, and the echo. *)
Inductive password_event : event -> Prop :=
| pw_ask : password_event (Printed (MPrompt (lit "Enter password: ")))
| pw_ask_named n : password_event (Printed (MPrompt (lit "Enter password (" ++ n ++ lit "): ")))
| pw_confirm : password_event (Printed (MPrompt (lit "Confirm password: ")))
| pw_line : password_event (Printed (MLine []))
| pw_empty : password_event (Printed (MLine (lit "Password can not be empty, try again.")))
| pw_mismatch : password_event (Printed (MLine (lit "Passwords don't match, try again.")))
| pw_echo b : password_event (Echo b)
| pw_typed line : password_event (Typed line).

(** Only errors appear and, if there is a terminal for both, the dialogue about passwords. *)
Definition quiet (terminal : bool) (tr : list event) : Prop :=
  Forall (fun e => error_event e \/ terminal = true /\ password_event e) tr.

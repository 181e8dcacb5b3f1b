(** Specification of what a run does to the settings of the terminal (C82). *)
From Coq.Strings Require Import String.
From Coq Require Import List NArith Bool.
From Verif Require Import Base Text Util Ui Terminal.
Import ListNotations.
Local Open Scope N_scope.

(** What is typed is shown: bit 3 of the local flags. *)
Definition shows (t : termios) : Prop := N.testbit (c_lflag t) 3 = true.

(** All settings are the same, except perhaps whether what is typed is shown. *)
Definition same_settings (t t' : termios) : Prop :=
  c_iflag t' = c_iflag t /\ c_oflag t' = c_oflag t /\ c_cflag t' = c_cflag t /\ c_line t' = c_line t /\ c_cc t' = c_cc t /\
  c_ispeed t' = c_ispeed t /\ c_ospeed t' = c_ospeed t /\ forall i, i <> 3 -> N.testbit (c_lflag t') i = N.testbit (c_lflag t) i.

(** The questions for passwords. *)
Inductive password_prompt : list N -> Prop :=
| pp_enter : password_prompt (lit "Enter password: ")
| pp_named n : password_prompt (lit "Enter password (" ++ n ++ lit "): ")
| pp_confirm : password_prompt (lit "Confirm password: ").

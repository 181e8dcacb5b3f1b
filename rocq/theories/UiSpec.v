(** Specification of the terminal dialogue (C38, C39, C47, C52), independent of the loops of ui.rs. *)
From Coq.Strings Require Import Byte String.
From Coq Require Import List NArith ZArith Bool.
From Verif Require Import Base Io Text TextProofs Util Ui.
Import ListNotations.
Local Open Scope N_scope.

(** [carries s b s']: the source delivers exactly the bytes [b] and then goes on as [s'], without an error
    or an end of file in between. *)
Inductive carries : source -> bytes -> source -> Prop :=
| c_done s : carries s [] s
| c_interrupted s b bs s' : carries s (b :: bs) s' -> carries (RInterrupted :: s) (b :: bs) s'
| c_last b s bs s' : carries s bs s' -> carries (RData [b] :: s) (b :: bs) s'
| c_byte b c d s bs s' : carries (RData (c :: d) :: s) bs s' -> carries (RData (b :: c :: d) :: s) (b :: bs) s'.

(** [r] is [t] without one carriage return at its end. *)
Definition without_cr (t r : list N) : Prop :=
  t = r ++ [13] \/ (t = r /\ forall r', t <> r' ++ [13]).

(** The user types the line [r]. *)
Definition types (s : source) (r : list N) (s' : source) : Prop :=
  exists t, Forall scalar t /\ ~ In 10 t /\ carries s (utf8 t ++ [x0a]) s' /\ without_cr t r.

(** The user types several lines. *)
Inductive replies : source -> list (list N) -> source -> Prop :=
| r_none s : replies s [] s
| r_line s r s1 rs s' : types s r s1 -> replies s1 rs s' -> replies s (r :: rs) s'.

(** Which dialogues end with the password [p]. *)
Inductive accepts : bool -> list (list N) -> list N -> Prop :=
| acc_decrypt p : p <> [] -> accepts false [p] p
| acc_encrypt p : p <> [] -> accepts true [p; p] p
| acc_empty enc rs p : accepts enc rs p -> accepts enc ([] :: rs) p
| acc_mismatch q q' rs p : q <> [] -> q' <> q -> accepts true rs p -> accepts true (q :: q' :: rs) p.

(** Which dialogues end with a yes or a no. *)
Definition yes_words : list (list N) :=
  map lit ["y"; "Y"; "yes"; "Yes"; "yEs"; "yeS"; "YEs"; "YeS"; "yES"; "YES"]%string.
Definition no_words : list (list N) := map lit ["n"; "N"; "no"; "No"; "nO"; "NO"]%string.
Inductive answers (default : bool) : list (list N) -> bool -> Prop :=
| ans_yes r : In r yes_words -> answers default [r] true
| ans_no r : In r no_words -> answers default [r] false
| ans_default : answers default [[]] default
| ans_again r rs b : r <> [] -> ~ In r yes_words -> ~ In r no_words -> answers default rs b -> answers default (r :: rs) b.

(** A terminal on which one can ask: there is an unused standard input, both sides are terminals and the
    verbosity allows it. *)
Definition interactive (u : ui) : Prop :=
  u_input u <> None /\ u_input_is_tty u = true /\ u_output_is_tty u = true /\ (-1 <= u_verbosity u)%Z.

(** Everything typed is typed while the terminal does not echo. *)
Fixpoint hidden (echo : bool) (tr : list event) : Prop :=
  match tr with
  | [] => True
  | Echo b :: tr => hidden b tr
  | Typed _ :: tr => echo = false /\ hidden echo tr
  | Printed _ :: tr => hidden echo tr
  end.
Fixpoint echo_at_end (echo : bool) (tr : list event) : bool :=
  match tr with [] => echo | Echo b :: tr => echo_at_end b tr | _ :: tr => echo_at_end echo tr end.
(** The lines the user typed. *)
Fixpoint typed (tr : list event) : list (list N) :=
  match tr with [] => [] | Typed t :: tr => t :: typed tr | _ :: tr => typed tr end.
Fixpoint printed (tr : list event) : list message :=
  match tr with [] => [] | Printed m :: tr => m :: printed tr | _ :: tr => printed tr end.

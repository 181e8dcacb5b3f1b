(** What progress reporting sees and what a progress line should say. *)
From Coq Require Import List NArith Bool Sorting.Sorted.
From Verif Require Import Base CliErrors Progress.
Import ListNotations.
Local Open Scope N_scope.

(** The points (time, bytes so far) of a history of notifications (time, bytes). *)
Fixpoint totals (sofar : N) (events : list (N * N)) : list (N * N) :=
  match events with
  | [] => []
  | (t, n) :: events' => (t, sofar + n) :: totals (sofar + n) events'
  end.
Definition points (start : N) (events : list (N * N)) : list (N * N) := (start, 0) :: totals 0 events.

Definition ms (t1 t2 : N) : N := (t2 - t1) / 1000000.

(** The clock does not run backwards. *)
Definition clock_ok (x y : N * N) : Prop := fst x <= fst y.
(** At least one byte per second between two points, unless they are at most one second apart. *)
Definition not_stalled (x y : N * N) : Prop :=
  ms (fst x) (fst y) <= 1000 \/ ms (fst x) (fst y) <= 1000 * (snd y - snd x).

(** Numbers far from the limits of 64 bits: less than 2^63 / 1000 bytes (8 PiB) processed. *)
Definition in_range (start : N) (filesize : option N) (events : list (N * N)) : Prop :=
  Forall (fun p => 1000 * snd p < 9223372036854775808 /\ ms start (fst p) < two64) (points start events) /\
  match filesize with Some f => f < 9223372036854775808 | None => True end.

(** A line is truthful: it shows the bytes of some point (but never more than the file size), the
    average speed since an earlier point more than a second ago, and the remaining seconds rounded up. *)
Definition truthful (filesize : option N) (pts : list (N * N)) (l : line) : Prop :=
  exists x y, In x pts /\ In y pts /\ fst x <= fst y /\ snd x <= snd y /\
    l_bytes l = match filesize with Some f => N.min f (snd y) | None => snd y end /\
    l_speed l = (if 1000 <? ms (fst x) (fst y) then Some (1000 * (snd y - snd x) / ms (fst x) (fst y)) else None) /\
    match l_speed l, filesize, l_eta l with
    | Some s, Some f, Some e => f - l_bytes l <= e * s /\ e * s < (f - l_bytes l) + s
    | Some _, Some _, None => False
    | _, _, Some _ => False
    | _, _, None => True
    end.

(** C44, C51: progress reporting. *)
From Coq Require Import List NArith Bool Lia Sorting.Sorted.
From Verif Require Import Base CliErrors Progress ProgressSpec ProgressProofs.
Import ListNotations.
Local Open Scope N_scope.

(** C44 is false: whatever the file size, a first notification of [n] bytes more than max(1, n) seconds
    after the start divides by zero.  An empty file whose keys take more than a second to derive does this
    ([n] = 0). *)
Theorem C44_progress_never_aborts_refuted start filesize t n events :
  start <= t -> 1000 < ms start t -> 1000 * n < ms start t -> ms start t < two64 ->
  report start (Some filesize) ((t, n) :: events) = Panic.
Proof. intros H1 H2 H3 H4. now apply stalled_start_panics. Qed.
Print Assumptions C44_progress_never_aborts_refuted.

(** It never aborts if the file size is unknown, or if between any two moments more than a second apart
    at least one byte per second is reported. *)
Theorem C44_progress_never_aborts_while_data_flows start filesize events :
  in_range start filesize events ->
  StronglySorted clock_ok (points start events) ->
  filesize = None \/ StronglySorted not_stalled (points start events) ->
  exists lines, report start filesize events = Ok lines.
Proof.
  intros B C D. destruct (report_ok start filesize events B (points_sorted start filesize events C D)) as (l & E & _).
  exists l. exact E.
Qed.
Print Assumptions C44_progress_never_aborts_while_data_flows.

(** C51: the numbers shown are right. *)
Theorem C51_progress_lines_are_truthful start filesize events lines :
  in_range start filesize events ->
  StronglySorted clock_ok (points start events) ->
  filesize = None \/ StronglySorted not_stalled (points start events) ->
  report start filesize events = Ok lines ->
  Forall (truthful filesize (points start events)) lines.
Proof.
  intros B C D H. destruct (report_ok start filesize events B (points_sorted start filesize events C D)) as (l & E & T).
  rewrite H in E. injection E as ->. exact T.
Qed.
Print Assumptions C51_progress_lines_are_truthful.

(** ** Concrete cases *)

(** An empty file whose only notification comes after 1.2 seconds. *)
Example C44_refuted_case : report 5 (Some 0) [(1200000005, 0)] = Panic.
Proof. apply C44_progress_never_aborts_refuted; vm_compute; congruence. Qed.

(** 300 bytes in three notifications over three seconds. *)
Definition ex_events : list (N * N) := [(500000000, 100); (2000000000, 100); (3000000000, 100)].
Example C44_case :
  in_range 0 (Some 350) ex_events /\ StronglySorted clock_ok (points 0 ex_events) /\
  StronglySorted not_stalled (points 0 ex_events) /\
  report 0 (Some 350) ex_events =
    Ok [mkLine 100 None None false; mkLine 200 (Some 100) (Some 2) false; mkLine 300 (Some 100) (Some 1) false;
        mkLine 300 (Some 100) (Some 1) true].
Proof.
  split; [split; [repeat constructor|reflexivity]|]. split; [repeat constructor; discriminate|].
  split; [|vm_compute; reflexivity].
  unfold points, ex_events. cbn [totals].
  repeat first [apply SSorted_cons | apply SSorted_nil | apply Forall_cons | apply Forall_nil];
    try (left; vm_compute; discriminate); right; vm_compute; discriminate.
Qed.

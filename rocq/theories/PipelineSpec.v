(** Observations of a pipeline state used by the theorems. *)
From Coq Require Import List NArith Bool.
From Coq.Strings Require Import Byte.
From Verif Require Import Base Shamir Errors Io Pipeline.
Import ListNotations.

(** Every chunk buffer that exists: in a queue or in the hands of a thread. *)
Definition held_by_reader (s : pstate) : list chunk :=
  match s_rd s with RFill c _ | RSend c _ => [c] | _ => [] end.
Definition held_by_codec (s : pstate) : list chunk :=
  match s_cd s with CConv c | CSend c => [c] | _ => [] end.
Definition held_by_writer (s : pstate) : list chunk :=
  match s_wr s with WWrite c _ | WFlush c | WSend c => [c] | _ => [] end.
Definition held_by_main (s : pstate) : list chunk :=
  match s_mn s with MSend c _ => [c] | _ => [] end.
Definition all_chunks (s : pstate) : list chunk :=
  s_ch0 s ++ held_by_reader s ++ s_ch1 s ++ held_by_codec s ++ s_ch2 s ++ held_by_writer s ++ s_ch3 s ++ held_by_main s.

(** The call has returned. *)
Definition returned (s : pstate) (r : outcome err unit) : Prop := s_mn s = MRet r.

(** Executions of a given length. *)
Inductive runs (p : pipe) : nat -> pstate -> pstate -> Prop :=
| RunsRefl s : runs p 0 s s
| RunsStep k s s' s'' : step p s s' -> runs p k s' s'' -> runs p (S k) s s''.

(** What the pipeline needs to know about its parameters: buffers of at least one byte, sizes that fit
    the address space, a converter that changes lengths as announced. *)
Definition pipe_ok (p : pipe) : Prop :=
  1 <= input_buffer_size p /\ (N.of_nat (buffer_capacity p) < two64)%N /\
  forall b l i b', length b <= input_buffer_size p -> p_conv p b l i = Ok b' ->
    length b' + p_in_asize p = length b + p_out_asize p.

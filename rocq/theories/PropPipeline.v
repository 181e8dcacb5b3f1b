(** C17 and C23-C27: reading in chunks, and the parallel pipeline.

    Vocabulary: [flat src] the bytes a source delivers before it ends or breaks, [ends_in_error src]
    whether it breaks; [is_split n data cs]: [cs] is [data] cut into pieces of [n] bytes;
    [seq_out]/[seq_success]/[first_failure] (StreamSpec): result of a plain sequential loop;
    [steps p (start src w) s]: [s] can be reached by some interleaving of the threads;
    [pipe_ok p]: nonempty buffers that fit into memory and a converter with the announced size change. *)
From Coq Require Import List NArith Bool Lia Arith.
From Coq.Strings Require Import Byte.
From Verif Require Import Base BaseFacts Shamir Errors Io HeaderIoSpec Pipeline PipelineSpec StreamSpec ChunkProofs
  PipelineProofs PipelineProofs2 PipelineProofs3 PipelineProofs4 ReadProofs PipelineExample.
Import ListNotations.

(** ** C17: chunking does not depend on how reads are segmented *)

Theorem C17_reader_emits_the_split :
  forall n bufs src cs,
    1 <= n -> Forall (fun c => length (ck_buf c) = n) bufs -> ends_in_error src = false ->
    is_split n (flat src) cs -> length cs <= length bufs ->
    exists sent,
      read_stream src None bufs = (sent, TOk) /\
      map ck_buf sent = cs /\
      map ck_last sent = repeat false (length cs - 1) ++ [true] /\
      map ck_idx sent = firstn (length cs) (map ck_idx bufs).
Proof. exact reader_split. Qed.
Print Assumptions C17_reader_emits_the_split.

Theorem C17_read_error_keeps_complete_chunks :
  forall n bufs src cs,
    1 <= n -> Forall (fun c => length (ck_buf c) = n) bufs -> ends_in_error src = true ->
    is_split n (flat src) cs -> length cs <= length bufs ->
    exists sent,
      read_stream src None bufs = (sent, TErr EIo) /\
      map ck_buf sent = removelast cs /\
      Forall (fun c => ck_last c = false) sent /\
      map ck_idx sent = firstn (length cs - 1) (map ck_idx bufs).
Proof. exact reader_broken. Qed.
Print Assumptions C17_read_error_keeps_complete_chunks.

(** The split exists and is unique, so the theorems above determine the reader completely. *)
Theorem C17_split_exists_and_is_unique :
  forall n data, 1 <= n -> exists cs, is_split n data cs /\ forall cs', is_split n data cs' -> cs' = cs.
Proof.
  intros n data Hn. exists (chunks n data). split; [apply chunks_split; assumption|].
  intros cs' H. eapply split_unique; [eassumption|eassumption|apply chunks_split; assumption].
Qed.
Print Assumptions C17_split_exists_and_is_unique.

(** The same inside the running pipeline: what the converter is given is the [i]-th piece with index
    [i], and the last flag exactly on the last piece of a source that does not break. *)
Theorem C17_converter_sees_the_split :
  forall p src w s c cs,
    pipe_ok p -> steps p (start src w) s -> s_cd s = CConv c -> is_split (input_buffer_size p) (flat src) cs ->
    exists i,
      i < length cs /\ nth_error cs i = Some (ck_buf c) /\ ck_idx c = wrap64 (N.of_nat i) /\
      (ck_last c = true <-> S i = length cs) /\ (S i = length cs -> ends_in_error src = false).
Proof. exact converter_split. Qed.
Print Assumptions C17_converter_sees_the_split.

Example C17_case :
  let bufs := map (fun i => mkChunk [x00; x00] 3 false i) [0; 1; 2; 3; 4; 5; 6; 7; 8]%N in
  map (fun c => (ck_buf c, ck_last c, ck_idx c)) (fst (read_stream ex_src None bufs)) =
  [([x61; x62], false, 0); ([x63; x64], false, 1); ([x65; x66], false, 2); ([x67; x68], false, 3);
   ([x69; x6a], false, 4); ([x6b; x6c], false, 5); ([x6d; x6e], false, 6); ([x6f], true, 7)]%N /\
  read_stream ex_broken_src None bufs = ([mkChunk [x61; x62] 3 false 0], TErr EIo) /\
  match s_cd (schedule 29 ex_pipe (start ex_src ex_sink)) with CConv c => ck_buf c = [x63; x64] | _ => False end.
Proof. split; [vm_compute; reflexivity|]. split; vm_compute; reflexivity. Qed.

(** ** C23: the parallel pipeline computes what a sequential loop computes *)

Theorem C23_output_is_always_a_prefix_of_the_sequential_output :
  forall p src w s,
    pipe_ok p -> steps p (start src w) s ->
    prefix_of (w_out (s_sink s)) (seq_out (p_conv p) (input_buffer_size p) src w).
Proof.
  intros p src w s Hok Hs. destruct (inv_reach p src w Hok s Hs) as (nr & nc & ns & nw & nd & nm & out & I).
  eapply reachable_prefix; eassumption.
Qed.
Print Assumptions C23_output_is_always_a_prefix_of_the_sequential_output.

Theorem C23_final_output_is_the_sequential_output :
  forall p src w s r,
    pipe_ok p -> steps p (start src w) s -> returned s r ->
    w_out (s_sink s) = seq_out (p_conv p) (input_buffer_size p) src w.
Proof.
  intros p src w s r Hok Hs Hr. destruct (inv_reach p src w Hok s Hs) as (nr & nc & ns & nw & nd & nm & out & I).
  eapply inv_final; try eassumption. apply Hn; assumption.
Qed.
Print Assumptions C23_final_output_is_the_sequential_output.

Example C23_case :
  let s := schedule 400 ex_pipe (start ex_src ex_sink) in
  pipe_ok ex_pipe /\ steps ex_pipe (start ex_src ex_sink) s /\ returned s (Ok tt) /\
  w_out (s_sink s) =
    [x52; x61; x62; x00; x63; x64; x00; x65; x66; x00; x67; x68; x00; x69; x6a; x00; x6b; x6c; x00;
     x6d; x6e; x00; x6f; x01] /\
  seq_out ex_conv 2 ex_src ex_sink = w_out (s_sink s) /\
  (* a failing converter: only the chunks before the failure *)
  w_out (s_sink (schedule 400 ex_pipe (start ex_bad_src ex_sink))) = [x52; x61; x62; x00] /\
  (* a full disk *)
  w_out (s_sink (schedule 400 ex_pipe (start ex_src ex_full_sink))) = [x61; x62; x00; x63].
Proof.
  split; [apply ex_pipe_ok|]. split; [apply schedule_steps|]. split; [vm_compute; reflexivity|].
  split; [vm_compute; reflexivity|]. split; [vm_compute; reflexivity|]. split; vm_compute; reflexivity.
Qed.

(** ** C24: no deadlock, termination *)

Theorem C24_no_deadlock :
  forall p src w s,
    pipe_ok p -> steps p (start src w) s -> (forall r, ~ returned s r) -> exists s', step p s s'.
Proof.
  intros p src w s Hok Hs Hr. destruct (inv_reach p src w Hok s Hs) as (nr & nc & ns & nw & nd & nm & out & I).
  eapply inv_live; eassumption.
Qed.
Print Assumptions C24_no_deadlock.

Theorem C24_every_execution_is_finite :
  forall p src w, pipe_ok p -> exists bound, forall k s, runs p k (start src w) s -> k <= bound.
Proof.
  intros p src w Hok. exists (weight p src w (start src w)). intros k s H.
  pose proof (runs_bound p src w Hok _ _ _ (StepsRefl _ _) H). lia.
Qed.
Print Assumptions C24_every_execution_is_finite.

(** Every execution that cannot be continued has returned; and every state can be continued until then. *)
Theorem C24_call_always_returns :
  forall p src w s, pipe_ok p -> steps p (start src w) s -> exists s' r, steps p s s' /\ returned s' r.
Proof. intros p src w s Hok Hs. exact (can_return p src w Hok s Hs). Qed.
Print Assumptions C24_call_always_returns.

Example C24_case :
  (exists s', step ex_pipe (schedule 100 ex_pipe (start ex_src ex_sink)) s') /\
  (forall r, ~ returned (schedule 100 ex_pipe (start ex_src ex_sink)) r) /\
  returned (schedule 400 ex_pipe (start ex_panic_src ex_sink)) (Err EThreadPanic).
Proof.
  split; [|split; [vm_compute; discriminate|vm_compute; reflexivity]].
  apply (C24_no_deadlock ex_pipe ex_src ex_sink); [apply ex_pipe_ok|apply schedule_steps|vm_compute; discriminate].
Qed.

(** ** C25: memory is bounded, buffers are never reallocated *)

Theorem C25_memory_is_bounded :
  forall p src w s,
    pipe_ok p -> steps p (start src w) s ->
    length (all_chunks s) <= 6 /\ length (s_ch1 s) <= 1 /\ length (s_ch2 s) <= 1 /\
    Forall (fun c => ck_cap c = buffer_capacity p /\ length (ck_buf c) <= buffer_capacity p) (all_chunks s).
Proof. intros p src w s Hok Hs. exact (memory p src w Hok s Hs). Qed.
Print Assumptions C25_memory_is_bounded.

(** The main loop's capacity assertion never fails, and its length subtraction never wraps: every
    count it computes is the size of an input chunk. *)
Theorem C25_main_loop_never_panics :
  forall p src w s,
    pipe_ok p -> steps p (start src w) s ->
    s_mn s <> MRet Panic /\
    Forall (fun k => (k <= N.of_nat (input_buffer_size p))%N) (s_progress s).
Proof. exact main_never_panics. Qed.
Print Assumptions C25_main_loop_never_panics.

Example C25_case :
  let s := schedule 60 ex_pipe (start ex_src ex_sink) in
  length (all_chunks s) = 6 /\ length (s_ch0 s) = 5 /\ Forall (fun c => ck_cap c = 4) (all_chunks s).
Proof. split; [vm_compute; reflexivity|]. split; [vm_compute; reflexivity|]. vm_compute. repeat constructor. Qed.

(** ** C26: errors are reported, success means everything was written and flushed *)

Theorem C26_success_iff_no_stage_fails :
  forall p src w s r,
    pipe_ok p -> steps p (start src w) s -> returned s r ->
    (r = Ok tt <-> seq_success (p_conv p) (input_buffer_size p) src w) /\
    (r = Ok tt -> w_flushed (s_sink s) = true) /\
    (r <> Ok tt -> exists e, r = Err e).
Proof.
  intros p src w s r Hok Hs Hr. destruct (inv_reach p src w Hok s Hs) as (nr & nc & ns & nw & nd & nm & out & I).
  destruct (inv_final p src w (Hn p Hok) _ _ _ _ _ _ _ _ _ I Hr) as (H1 & H2 & H3 & H4 & _).
  split; [assumption|]. split; [assumption|]. intros Hne. destruct r as [[]|e|]; [contradiction|eauto|contradiction].
Qed.
Print Assumptions C26_success_iff_no_stage_fails.

(** The error returned is that of a stage that failed. *)
Theorem C26_error_comes_from_a_failing_stage :
  forall p src w s e,
    pipe_ok p -> steps p (start src w) s -> returned s (Err e) ->
    let inputs := input_chunks (input_buffer_size p) src in
    let outputs := seq_converted (p_conv p) (input_buffer_size p) src in
    (e = EIo /\ ends_in_error src = true) \/
    first_failure (p_conv p) 0 inputs = Some (Err e) \/
    (e = EThreadPanic /\ first_failure (p_conv p) 0 inputs = Some Panic) \/
    (e = EIo /\ ~ (room_for w (length (concat outputs)) /\ w_flush_ok w = true)).
Proof. intros p src w s e Hok Hs Hr. exact (error_origin p src w Hok s e Hs Hr). Qed.
Print Assumptions C26_error_comes_from_a_failing_stage.

Example C26_case :
  let r src w := s_mn (schedule 400 ex_pipe (start src w)) in
  r ex_src ex_sink = MRet (Ok tt) /\ r ex_bad_src ex_sink = MRet (Err ECorrupt) /\
  r ex_panic_src ex_sink = MRet (Err EThreadPanic) /\ r ex_broken_src ex_sink = MRet (Err EIo) /\
  r ex_src ex_full_sink = MRet (Err EIo) /\ r ex_src (mkSink [] None false false) = MRet (Err EIo).
Proof. repeat split; vm_compute; reflexivity. Qed.

(** ** C27: progress callbacks account for every byte *)

Theorem C27_progress_never_exceeds_the_input :
  forall p src w s,
    pipe_ok p -> steps p (start src w) s -> (sumN (s_progress s) <= lenN (flat src))%N.
Proof.
  intros p src w s Hok Hs. destruct (inv_reach p src w Hok s Hs) as (nr & nc & ns & nw & nd & nm & out & I).
  eapply inv_progress; try eassumption. apply Hn; assumption.
Qed.
Print Assumptions C27_progress_never_exceeds_the_input.

Theorem C27_progress_sums_to_the_input :
  forall p src w s,
    pipe_ok p -> steps p (start src w) s -> returned s (Ok tt) -> sumN (s_progress s) = lenN (flat src).
Proof.
  intros p src w s Hok Hs Hr. destruct (inv_reach p src w Hok s Hs) as (nr & nc & ns & nw & nd & nm & out & I).
  destruct (inv_final p src w (Hn p Hok) _ _ _ _ _ _ _ _ _ I Hr) as (_ & H2 & _ & _ & H5).
  eapply inv_progress; try eassumption; [apply Hn; assumption|auto|].
  destruct (proj1 H2 eq_refl) as [H _]. unfold seq_input_ok in H. apply andb_prop in H. destruct H as [H _].
  apply negb_true_iff in H. exact H.
Qed.
Print Assumptions C27_progress_sums_to_the_input.

Example C27_case :
  s_progress (schedule 400 ex_pipe (start ex_src ex_sink)) = [2; 2; 2; 2; 2; 2; 2; 1]%N /\
  s_progress (schedule 400 ex_pipe (start ex_bad_src ex_sink)) = [2]%N.
Proof. split; vm_compute; reflexivity. Qed.

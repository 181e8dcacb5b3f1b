(** A scheduler and small pipelines for the examples beside the theorems. *)
From Coq Require Import List NArith Bool Lia Arith.
From Coq.Strings Require Import Byte.
From Verif Require Import Base Shamir Errors Io HeaderIoSpec Pipeline PipelineSpec StreamSpec PipelineProofs3.
Import ListNotations.

(** One particular scheduler: main before writer before converter before reader; writes as large as
    possible. *)
Definition pick (p : pipe) (s : pstate) : option pstate :=
  let k := match s_wr s with
           | WWrite _ rest => match w_room (s_sink s) with Some r => Nat.min r (length rest) | None => length rest end
           | _ => 0 end in
  match step_main p s with
  | Some s' => Some s'
  | None => match step_writer k s with
            | Some s' => Some s'
            | None => match step_codec p s with
                      | Some s' => Some s'
                      | None => step_reader s end end end.

Fixpoint schedule (fuel : nat) (p : pipe) (s : pstate) : pstate :=
  match fuel with
  | O => s
  | S f => match pick p s with Some s' => schedule f p s' | None => s end
  end.

Lemma pick_step p s s' : pick p s = Some s' -> step p s s'.
Proof.
  unfold pick. intros H. destruct (step_main p s) eqn:E1; [injection H as <-; apply StepMain; assumption|].
  match type of H with match step_writer ?k _ with _ => _ end = _ => set (kk := k) in H end.
  destruct (step_writer kk s) eqn:E2; [injection H as <-; eapply StepWriter; eassumption|].
  destruct (step_codec p s) eqn:E3; [injection H as <-; apply StepCodec; assumption|].
  apply StepReader. assumption.
Qed.

Lemma schedule_steps fuel p s : steps p s (schedule fuel p s).
Proof.
  revert s. induction fuel as [|f IH]; intros s; cbn; [constructor|].
  destruct (pick p s) eqn:Ep; [|constructor]. econstructor; [apply pick_step; eassumption|apply IH].
Qed.

(** A converter that appends one byte and refuses chunks containing ff. *)
Definition ex_conv (b : bytes) (l : bool) (i : N) : outcome err bytes :=
  if existsb (Byte.eqb xff) b then Err ECorrupt
  else if existsb (Byte.eqb xfe) b then Panic
  else Ok (b ++ [if l then x01 else x00]).
Definition ex_pipe : pipe := mkPipe ex_conv 0 1 2.

Lemma ex_pipe_ok : pipe_ok ex_pipe.
Proof.
  split; [unfold input_buffer_size; cbn; lia|]. split; [unfold buffer_capacity; cbn; reflexivity|].
  intros b l i b' _. cbn. unfold ex_conv. destruct (existsb _ b); [discriminate|].
  destruct (existsb _ b); [discriminate|]. intros H. injection H as <-. rewrite app_length. cbn. lia.
Qed.

(** Fifteen bytes in short reads with interruptions: eight chunks, more than fit into the pipeline. *)
Definition ex_src : source :=
  [RInterrupted; RData [x61; x62; x63]; RData [x64]; RInterrupted; RData [x65; x66; x67; x68; x69; x6a];
   RData [x6b; x6c; x6d; x6e; x6f]].
Definition ex_sink : sink := mkSink [x52] None true false.
Definition ex_bad_src : source := [RData [x61; x62; x63; xff; x65; x66]].
Definition ex_panic_src : source := [RData [x61; x62; xfe; x63; x65; x66]].
Definition ex_broken_src : source := [RData [x61; x62; x63]; RError].
Definition ex_full_sink : sink := mkSink [] (Some 4) true false.

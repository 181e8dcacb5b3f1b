(** Memory of the pipeline, and termination. *)
From Coq Require Import List NArith Bool Lia Arith.
From Coq.Strings Require Import Byte.
From Verif Require Import Base BaseFacts Shamir Errors Io HeaderIoSpec HeaderIoProofs Pipeline PipelineSpec StreamSpec
  ChunkProofs PipelineProofs PipelineProofs2.
Import ListNotations.

Section Mem.
Context (p : pipe) (src0 : source) (sk0 : sink) (Hok : pipe_ok p).
Notation Inv := (Inv p src0 sk0).

Lemma Hn : 1 <= PipelineProofs.n p.
Proof. apply Hok. Qed.
Lemma Hcap64 : (N.of_nat (CAP p) < two64)%N.
Proof. apply Hok. Qed.
Lemma Hreg : regular p.
Proof. exact (proj2 (proj2 Hok)). Qed.

Lemma steps_snoc s s' s'' : steps p s s' -> step p s' s'' -> steps p s s''.
Proof. induction 1; intros; econstructor; eauto. constructor. Qed.

Lemma steps_trans s s' s'' : steps p s s' -> steps p s' s'' -> steps p s s''.
Proof. induction 1; intros; [assumption|]. econstructor; eauto. Qed.

Lemma inv_reach s : steps p (start src0 sk0) s -> exists nr nc ns nw nd nm out, Inv nr nc ns nw nd nm out s.
Proof. apply Inv_steps; [apply Hn|apply Hreg|apply Hcap64]. Qed.

Definition cap_ok (c : chunk) : Prop := ck_cap c = CAP p /\ length (ck_buf c) <= CAP p.

Lemma Forall_app6 (P : chunk -> Prop) a b c d e f g h :
  Forall P (a ++ b ++ c ++ d ++ e ++ f ++ g ++ h) <->
  Forall P a /\ Forall P b /\ Forall P c /\ Forall P d /\ Forall P e /\ Forall P f /\ Forall P g /\ Forall P h.
Proof. rewrite !Forall_app. tauto. Qed.

(** What the invariant says of the chunks in the hands of threads. *)
Lemma held_ok nr nc ns nw nd nm out s : Inv nr nc ns nw nd nm out s ->
  Forall cap_ok (held_by_reader s) /\ Forall cap_ok (held_by_codec s) /\ Forall cap_ok (held_by_writer s) /\
  Forall cap_ok (held_by_main s) /\ Forall cap_ok (s_ch0 s) /\ Forall cap_ok (s_ch3 s).
Proof.
  intros [Iord Ird Icd Iwr Isk Imn Ich0 Ich1 Ich2 Icnt].
  pose proof (D_E p src0) as HDE. pose proof (cap_enough_n p Hn) as HnC.
  assert (Hin : forall i, i < length (E p src0) -> cap_ok (in_chunk p src0 i)).
  { intros i Hi. split; [reflexivity|]. cbn. assert (length (fst (Ei p src0 i)) <= PipelineProofs.n p); [|lia].
    apply input_le; [apply Hn|assumption]. }
  assert (Hout : forall i, i < length (D p src0) -> cap_ok (out_chunk p src0 i)).
  { intros i Hi. split; [reflexivity|]. apply cap_enough; [apply Hn|apply Hreg|assumption]. }
  assert (Hfr : forall c, fresh p c -> cap_ok c).
  { intros c [H1 H2]. split; [assumption|lia]. }
  unfold held_by_reader, held_by_codec, held_by_writer, held_by_main.
  split; [|split; [|split; [|split; [|split]]]].
  - destruct (s_rd s); cbn in Ird; try (constructor; fail); (constructor; [|constructor]).
    + split; [tauto|]. lia.
    + destruct Ird as (H & -> & _). apply Hin. assumption.
  - destruct (s_cd s); cbn in Icd; try (constructor; fail); (constructor; [|constructor]); destruct Icd as [Hnc Icd].
    + subst c. apply Hin. lia.
    + destruct Icd as [-> H]. apply Hout. assumption.
  - destruct (s_wr s); cbn in Iwr; try (constructor; fail); (constructor; [|constructor]); destruct Iwr as (Hnw & -> & _);
      apply Hout; lia.
  - destruct Ich0 as (_ & H & _). destruct (s_mn s); try (constructor; fail). constructor; [|constructor]. apply Hfr. assumption.
  - eapply Forall_impl; [|apply Ich0]. apply Hfr.
  - destruct Imn as (_ & -> & _). apply Forall_forall. intros c Hc. apply in_map_iff in Hc.
    destruct Hc as (i & <- & Hi). apply in_seq in Hi. apply Hout. lia.
Qed.

(** The bounded queues only ever hold chunks that were in the hands of the sending thread. *)
Lemma queues_ok nr nc ns nw nd nm out s s' : Inv nr nc ns nw nd nm out s -> step p s s' ->
  Forall cap_ok (s_ch1 s) -> Forall cap_ok (s_ch2 s) -> Forall cap_ok (s_ch1 s') /\ Forall cap_ok (s_ch2 s').
Proof.
  intros I Hs H1 H2. destruct (held_ok _ _ _ _ _ _ _ _ I) as (Hr & Hc & _).
  destruct s as [src rd ch0 ch1 cd ch2 wr sk ch3 mn idx pg].
  unfold held_by_reader, held_by_codec in *.
  cbn [s_src s_rd s_ch0 s_ch1 s_cd s_ch2 s_wr s_sink s_ch3 s_mn s_idx s_progress] in *.
  destruct Hs as [H|H|k H|H].
  - unfold step_reader, set_reader in H. cbn [s_src s_rd s_ch0 s_ch1 s_cd s_ch2 s_wr s_sink s_ch3 s_mn s_idx s_progress] in H.
    destruct rd as [lb|c ptr|c nx|t|t].
    + destruct ch0 as [|c ch0]; [destruct (initial_sender_alive _); [discriminate|]|destruct (start_chunk lb c)];
        injection H as <-; auto.
    + destruct (Nat.leb _ _); [destruct (full_chunk c); injection H as <-; auto|].
      destruct src as [|[[|x d]| |] src]; injection H as <-; auto.
    + destruct (codec_receiver_alive _); [|injection H as <-; auto].
      destruct ch1; [|discriminate]. injection H as <-. cbn. auto.
    + injection H as <-; auto.
    + discriminate.
  - unfold step_codec, set_codec in H. cbn [s_src s_rd s_ch0 s_ch1 s_cd s_ch2 s_wr s_sink s_ch3 s_mn s_idx s_progress] in H.
    destruct cd as [|c|c|t|t].
    + destruct ch1 as [|c ch1]; [destruct (read_sender_alive _); [discriminate|]|]; injection H as <-; cbn; auto.
      split; [inversion H1; assumption|assumption].
    + destruct (p_conv p _ _ _); injection H as <-; auto.
    + destruct (write_receiver_alive _); [|injection H as <-; auto].
      destruct ch2; [|discriminate]. injection H as <-. cbn. auto.
    + injection H as <-; auto.
    + discriminate.
  - unfold step_writer, set_writer in H. cbn [s_src s_rd s_ch0 s_ch1 s_cd s_ch2 s_wr s_sink s_ch3 s_mn s_idx s_progress] in H.
    destruct wr as [|c rest|c|c|t|t].
    + destruct ch2 as [|c ch2]; [destruct (codec_sender_alive _); [discriminate|]|]; injection H as <-; cbn; auto.
      split; [assumption|inversion H2; assumption].
    + destruct rest; [injection H as <-; auto|].
      destruct (w_room sk) as [[|q]|]; [injection H as <-; auto|..];
        (destruct (_ && _) in H; [injection H as <-; auto|discriminate]).
    + destruct (flush sk) as [[] ]; injection H as <-; auto.
    + destruct (final_receiver_alive _); injection H as <-; auto.
    + injection H as <-; auto.
    + discriminate.
  - unfold step_main, set_main in H. cbn [s_src s_rd s_ch0 s_ch1 s_cd s_ch2 s_wr s_sink s_ch3 s_mn s_idx s_progress] in H.
    destruct mn as [[|k]| |c w|w| |r]; try (injection H as <-; auto; fail); try discriminate.
    + destruct ch3; [destruct (write_sender_alive _); [discriminate|]; injection H as <-; auto|].
      destruct (Nat.eqb _ _); injection H as <-; auto.
    + destruct rd; try discriminate. destruct cd; try discriminate. destruct wr; try discriminate.
      injection H as <-; auto.
Qed.

Lemma queues_ok_steps s s' : steps p s s' -> steps p (start src0 sk0) s ->
  Forall cap_ok (s_ch1 s) -> Forall cap_ok (s_ch2 s) -> Forall cap_ok (s_ch1 s') /\ Forall cap_ok (s_ch2 s').
Proof.
  induction 1 as [|s s' s'' Hs H IH]; intros Hr H1 H2; [auto|].
  destruct (inv_reach s Hr) as (nr & nc & ns & nw & nd & nm & out & I).
  destruct (queues_ok _ _ _ _ _ _ _ _ _ I Hs H1 H2) as [H1' H2'].
  apply IH; try assumption. eapply steps_snoc; eauto.
Qed.

Lemma memory s : steps p (start src0 sk0) s ->
  length (all_chunks s) <= 6 /\ length (s_ch1 s) <= 1 /\ length (s_ch2 s) <= 1 /\
  Forall cap_ok (all_chunks s).
Proof.
  intros H. destruct (inv_reach s H) as (nr & nc & ns & nw & nd & nm & out & I).
  destruct (held_ok _ _ _ _ _ _ _ _ I) as (H1 & H2 & H3 & H4 & H5 & H6).
  destruct (queues_ok_steps _ _ H (StepsRefl _ _)) as [H7 H8]; [constructor|constructor|].
  destruct I as [_ _ _ _ _ _ _ Ich1 Ich2 Icnt].
  split; [|split; [apply Ich1|split; [apply Ich2|]]].
  - destruct Icnt as [Icnt _]. unfold all_chunks, held_by_reader, held_by_codec, held_by_writer, held_by_main.
    rewrite !app_length. unfold NUM_CHUNKS_IN_PIPELINE, mn_held, rd_held, cd_held, wr_held in Icnt.
    destruct (s_rd s), (s_cd s), (s_wr s), (s_mn s); cbn [length]; lia.
  - unfold all_chunks. apply Forall_app6. tauto.
Qed.

(** Termination. *)
Lemma runs_bound s k s' : steps p (start src0 sk0) s -> runs p k s s' -> k + weight p src0 sk0 s' <= weight p src0 sk0 s.
Proof.
  intros Hr H. induction H as [|k s s' s'' Hs H IH]; [lia|].
  destruct (inv_reach s Hr) as (nr & nc & ns & nw & nd & nm & out & I).
  pose proof (inv_weight p src0 sk0 Hn _ _ _ _ _ _ _ _ _ I Hs).
  specialize (IH (steps_snoc _ _ _ Hr Hs)). lia.
Qed.

Lemma can_return s : steps p (start src0 sk0) s -> exists s' r, steps p s s' /\ s_mn s' = MRet r.
Proof.
  intros Hr. remember (weight p src0 sk0 s) as w eqn:Ew. revert s Hr Ew.
  induction w as [w IH] using lt_wf_ind. intros s Hr Ew.
  destruct (inv_reach s Hr) as (nr & nc & ns & nw & nd & nm & out & I).
  assert (Hdec : (exists r, s_mn s = MRet r) \/ (forall r, s_mn s <> MRet r)).
  { destruct (s_mn s); try (right; discriminate). left. eauto. }
  destruct Hdec as [[r Hd]|Hd]; [exists s, r; split; [constructor|assumption]|].
  destruct (inv_live p src0 sk0 _ _ _ _ _ _ _ _ I Hd) as [s' Hs].
  pose proof (inv_weight p src0 sk0 Hn _ _ _ _ _ _ _ _ _ I Hs) as Hw.
  destruct (IH (weight p src0 sk0 s') ltac:(lia) s' (steps_snoc _ _ _ Hr Hs) eq_refl) as (s'' & r & Hss & Hret).
  exists s'', r. split; [econstructor; eauto|assumption].
Qed.

End Mem.

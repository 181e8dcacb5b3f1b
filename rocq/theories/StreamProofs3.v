(** Encrypting and decrypting streams through the pipeline. *)
From Coq Require Import List NArith Bool Lia Arith.
From Coq.Strings Require Import Byte.
From Verif Require Import Base BaseFacts Shamir Errors Io HeaderIoSpec HeaderIoProofs Crypto HeaderCrypto StreamCrypto Pipeline
  PipelineSpec StreamSpec ChunkProofs PipelineProofs PipelineProofs2 PipelineProofs3 FileCrypto StreamProofs AuthSpec StreamProofs2.
Import ListNotations.

Lemma taken_all' w d : room_for w (length d) -> taken w d = d.
Proof. unfold room_for, taken. destruct (w_room w); intros H; [|reflexivity]. apply firstn_all2. assumption. Qed.

Section Streams.
Context (cod : codec) (Hcs : crypto_ok (co_cs cod)) (He : co_encrypting cod = true).
Context (c : nat) (Hc : 1 <= c) (H64 : (N.of_nat c + 17 < two64)%N).

Lemma enc_pipe_ok : pipe_ok (codec_pipe cod c).
Proof. apply codec_pipe_ok; auto. Qed.

Lemma dec_pipe_ok : pipe_ok (codec_pipe (decrypting cod) c).
Proof. apply codec_pipe_ok; auto. Qed.

Lemma enc_n : input_buffer_size (codec_pipe cod c) = c.
Proof. unfold input_buffer_size. cbn. unfold input_asize. rewrite He. lia. Qed.

Lemma dec_n : input_buffer_size (codec_pipe (decrypting cod) c) = c + 16.
Proof. reflexivity. Qed.

(** Encryption. *)
Lemma encrypt_result src w r w' : convert_stream (codec_pipe cod c) src w r w' ->
  (r = Ok tt <-> ends_in_error src = false /\ room_for w (length (concat (enc_chunks cod c (flat src)))) /\ w_flush_ok w = true) /\
  (r = Ok tt -> w_out w' = w_out w ++ concat (enc_chunks cod c (flat src)) /\ w_flushed w' = true) /\
  r <> Panic.
Proof.
  intros H. destruct (convert_stream_spec _ enc_pipe_ok _ _ _ _ H) as (H1 & H2 & H3 & H4).
  rewrite enc_n in H1, H2. cbn [p_conv codec_pipe] in H1, H2.
  assert (Hs : seq_success (convert_chunk cod) c src w <->
    ends_in_error src = false /\ room_for w (length (concat (enc_chunks cod c (flat src)))) /\ w_flush_ok w = true).
  { unfold seq_success. destruct (ends_in_error src) eqn:Ee.
    - unfold seq_input_ok. rewrite Ee. cbn. split; [intros [? _]; discriminate|intros [? _]; discriminate].
    - destruct (enc_seq cod Hcs He c Hc src Ee) as [-> ->]. tauto. }
  split; [rewrite H2; exact Hs|]. split; [|assumption]. intros Hr.
  split; [|auto]. apply H2, Hs in Hr. destruct Hr as (Ee & Hr & _). rewrite H1. unfold seq_out.
  destruct (enc_seq cod Hcs He c Hc src Ee) as [-> _]. rewrite taken_all' by assumption. reflexivity.
Qed.

(** Decryption of the honest ciphertext. *)
Lemma decrypt_honest m src w r w' :
  flat src = concat (enc_chunks cod c m) -> ends_in_error src = false ->
  convert_stream (codec_pipe (decrypting cod) c) src w r w' ->
  (r = Ok tt <-> room_for w (length m) /\ w_flush_ok w = true) /\
  (r = Ok tt -> w_out w' = w_out w ++ m /\ w_flushed w' = true).
Proof.
  intros Hf Ee H. destruct (convert_stream_spec _ dec_pipe_ok _ _ _ _ H) as (H1 & H2 & H3 & H4).
  rewrite dec_n in H1, H2. cbn [p_conv codec_pipe] in H1, H2.
  destruct (dec_seq cod Hcs He c Hc m src Hf Ee) as [Hd1 Hd2].
  unfold seq_success in H2. unfold seq_out in H1. rewrite Hd1 in H1, H2. rewrite Hd2 in H2. rewrite chunks_concat in H1, H2 by assumption.
  split; [tauto|]. intros Hr. split; [|auto]. apply H2 in Hr. rewrite H1, taken_all' by tauto. reflexivity.
Qed.

(** Decryption of anything. *)
Section Adversary.
Context (m : bytes) (Hm : (lenN m < two64)%N).
Notation made := (sealed_data (co_cs cod) (co_key cod) (co_header_hash cod) c m).

Lemma tampered src : (lenN (flat src) < two64)%N ->
  forgery (co_cs cod) (co_key cod) made (presented (co_header_hash cod) (c + 16) src) \/
  (forall w s, steps (codec_pipe (decrypting cod) c) (start src w) s -> prefix_of (w_out (s_sink s)) (w_out w ++ m)) /\
  (forall w r w', convert_stream (codec_pipe (decrypting cod) c) src w r w' ->
     (exists k, (k = length m \/ exists q, k = q * c) /\ w_out w' = w_out w ++ taken w (firstn k m)) /\
     (r = Ok tt -> flat src = concat (enc_chunks cod c m) /\ w_out w' = w_out w ++ m)).
Proof.
  intros Hs. destruct (source_authentic cod Hcs He c Hc m Hm src Hs) as [F|[[k Hk] Hok]]; [left; exact F|right].
  assert (Hcat : exists k', (k' = length m \/ exists q, k' = q * c) /\
    concat (seq_converted (convert_chunk (decrypting cod)) (c + 16) src) = firstn k' m).
  { destruct (Nat.le_gt_cases k (length (chunks c m))) as [Hx|Hx].
    - exists (k * c). split; [eauto|]. rewrite Hk. apply concat_firstn_chunks; assumption.
    - exists (length m). split; [auto|]. rewrite Hk, firstn_all2, chunks_concat, firstn_all by lia. reflexivity. }
  destruct Hcat as (k' & Hk1 & Hk2).
  split.
  - intros w s Hst. destruct (inv_reach _ src w dec_pipe_ok s Hst) as (nr & nc & ns & nw & nd & nm & out & I).
    apply reachable_prefix in I. eapply prefix_trans; [exact I|].
    unfold seq_out. change (PipelineProofs.n _) with (c + 16). cbn [p_conv codec_pipe]. rewrite Hk2.
    unfold taken. destruct (w_room w) as [q|].
    + exists (skipn q (firstn k' m) ++ skipn k' m). rewrite <- app_assoc. f_equal. rewrite app_assoc, firstn_skipn, firstn_skipn. reflexivity.
    + exists (skipn k' m). rewrite <- app_assoc, firstn_skipn. reflexivity.
  - intros w r w' H. destruct (convert_stream_spec _ dec_pipe_ok _ _ _ _ H) as (H1 & H2 & H3 & H4).
    rewrite dec_n in H1, H2. cbn [p_conv codec_pipe] in H1, H2. unfold seq_out in H1. rewrite Hk2 in H1.
    split; [eauto|]. intros Hr. apply H2 in Hr. destruct Hr as (Hr1 & Hr2 & _). destruct (Hok Hr1) as [Ho1 Ho2].
    split; [assumption|]. rewrite H1. rewrite Ho2 in Hk2, Hr2. rewrite chunks_concat in Hk2, Hr2 by assumption.
    rewrite <- Hk2, taken_all' by assumption. reflexivity.
Qed.
End Adversary.
End Streams.

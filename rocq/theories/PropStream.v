(** C18-C20: encrypted data streams.

    Vocabulary: [convert_stream p src w r w']: a run of the pipeline on source [src] and sink [w] that
    returns [r] and leaves the sink [w'], under some schedule; [codec_pipe cod c]: encryption or
    decryption with chunk size [c]; [sealed_data]/[presented]/[forgery] (AuthSpec): the authenticated
    encryptions made for a plaintext, those a stream presents to the decryptor, and something presented
    and accepted that was never made. *)
From Coq Require Import List NArith Bool Lia Arith.
From Coq.Strings Require Import Byte.
From Verif Require Import Base BaseFacts Shamir Errors Io HeaderIoSpec Crypto HeaderCrypto StreamCrypto Pipeline PipelineSpec
  StreamSpec FileCrypto AuthSpec StreamProofs StreamProofs2 StreamProofs3 ToyCrypto PipelineExample.
Import ListNotations.

(** ** C18: encryption round-trips *)

Theorem C18_stream_round_trip :
  forall cod c src1 w1 w1' src2 w2 r w2',
    crypto_ok (co_cs cod) -> co_encrypting cod = true -> 1 <= c -> (N.of_nat c + 17 < 2 ^ 64)%N ->
    convert_stream (codec_pipe cod c) src1 w1 (Ok tt) w1' ->
    w_out w1' = w_out w1 ++ flat src2 -> ends_in_error src2 = false ->
    convert_stream (codec_pipe (decrypting cod) c) src2 w2 r w2' ->
    room_for w2 (length (flat src1)) -> w_flush_ok w2 = true ->
    r = Ok tt /\ w_out w2' = w_out w2 ++ flat src1 /\ w_flushed w2' = true.
Proof.
  intros cod c src1 w1 w1' src2 w2 r w2' Hcs He Hc H64 HE Hf Ee HD Hr Hfl.
  destruct (encrypt_result cod Hcs He c Hc H64 _ _ _ _ HE) as (_ & H1 & _). destruct (H1 eq_refl) as [H2 _].
  rewrite H2 in Hf. apply app_inv_head in Hf. symmetry in Hf.
  destruct (decrypt_honest cod Hcs He c Hc H64 _ _ _ _ _ Hf Ee HD) as (H3 & H4).
  assert (Hok : r = Ok tt) by (apply H3; auto). split; [assumption|auto].
Qed.
Print Assumptions C18_stream_round_trip.

(** The hypotheses can always be met: both calls return, and encryption succeeds exactly when the
    source and the sink do not fail. *)
Theorem C18_encryption_succeeds :
  forall cod c src w,
    crypto_ok (co_cs cod) -> co_encrypting cod = true -> 1 <= c -> (N.of_nat c + 17 < 2 ^ 64)%N ->
    (exists r w', convert_stream (codec_pipe cod c) src w r w') /\
    (exists r w', convert_stream (codec_pipe (decrypting cod) c) src w r w') /\
    forall r w', convert_stream (codec_pipe cod c) src w r w' ->
      ends_in_error src = false -> w_room w = None -> w_flush_ok w = true -> r = Ok tt.
Proof.
  intros cod c src w Hcs He Hc H64. split; [|split].
  - apply convert_stream_exists. apply enc_pipe_ok; assumption.
  - apply convert_stream_exists. apply dec_pipe_ok; assumption.
  - intros r w' H Ee Hw Hfl. apply (encrypt_result cod Hcs He c Hc H64 _ _ _ _ H).
    split; [assumption|]. split; [|assumption]. unfold room_for. rewrite Hw. exact Logic.I.
Qed.
Print Assumptions C18_encryption_succeeds.

(** ** C19: size of the encrypted data *)

Theorem C19_encrypted_size :
  forall cod c src w w',
    crypto_ok (co_cs cod) -> co_encrypting cod = true -> 1 <= c -> (N.of_nat c + 17 < 2 ^ 64)%N ->
    convert_stream (codec_pipe cod c) src w (Ok tt) w' ->
    let n := length (flat src) in
    length (w_out w') = length (w_out w) + n + 16 * Nat.max 1 ((n + c - 1) / c).
Proof.
  intros cod c src w w' Hcs He Hc H64 HE n.
  destruct (encrypt_result cod Hcs He c Hc H64 _ _ _ _ HE) as (_ & H1 & _). destruct (H1 eq_refl) as [-> _].
  rewrite app_length, enc_size, chunks_count by assumption. fold n. lia.
Qed.
Print Assumptions C19_encrypted_size.

(** ** C20: tampering is detected, only authentic prefixes are released *)

Theorem C20_tampering_is_detected :
  forall cod c src w w' src',
    crypto_ok (co_cs cod) -> co_encrypting cod = true -> 1 <= c -> (N.of_nat c + 17 < 2 ^ 64)%N ->
    convert_stream (codec_pipe cod c) src w (Ok tt) w' -> (lenN (flat src) < 2 ^ 64)%N ->
    (lenN (flat src') < 2 ^ 64)%N ->
    forgery (co_cs cod) (co_key cod) (sealed_data (co_cs cod) (co_key cod) (co_header_hash cod) c (flat src))
      (presented (co_header_hash cod) (c + 16) src') \/
    forall v r v', convert_stream (codec_pipe (decrypting cod) c) src' v r v' ->
      (exists k, (k = length (flat src) \/ exists q, k = q * c) /\ w_out v' = w_out v ++ taken v (firstn k (flat src))) /\
      (r = Ok tt -> w_out w' = w_out w ++ flat src' /\ w_out v' = w_out v ++ flat src).
Proof.
  intros cod c src w w' src' Hcs He Hc H64 HE Hm Hs.
  destruct (encrypt_result cod Hcs He c Hc H64 _ _ _ _ HE) as (_ & H1 & _). destruct (H1 eq_refl) as [H2 _].
  destruct (tampered cod Hcs He c Hc H64 (flat src) Hm src' Hs) as [F|[_ H3]]; [left; exact F|right].
  intros v r v' HD. destruct (H3 v r v' HD) as [H4 H5]. split; [assumption|].
  intros Hr. destruct (H5 Hr) as [H6 H7]. rewrite H6. auto.
Qed.
Print Assumptions C20_tampering_is_detected.

Theorem C20_only_authentic_prefixes_are_written_at_any_moment :
  forall cod c src w w' src',
    crypto_ok (co_cs cod) -> co_encrypting cod = true -> 1 <= c -> (N.of_nat c + 17 < 2 ^ 64)%N ->
    convert_stream (codec_pipe cod c) src w (Ok tt) w' -> (lenN (flat src) < 2 ^ 64)%N ->
    (lenN (flat src') < 2 ^ 64)%N ->
    forgery (co_cs cod) (co_key cod) (sealed_data (co_cs cod) (co_key cod) (co_header_hash cod) c (flat src))
      (presented (co_header_hash cod) (c + 16) src') \/
    forall v s, steps (codec_pipe (decrypting cod) c) (start src' v) s ->
      prefix_of (w_out (s_sink s)) (w_out v ++ flat src).
Proof.
  intros cod c src w w' src' Hcs He Hc H64 HE Hm Hs.
  destruct (tampered cod Hcs He c Hc H64 (flat src) Hm src' Hs) as [F|[H3 _]]; [left; exact F|right; exact H3].
Qed.
Print Assumptions C20_only_authentic_prefixes_are_written_at_any_moment.

(** In particular every stream that is not the honest one is refused. *)
Theorem C20_modified_streams_are_refused :
  forall cod c src w w' src' v r v',
    crypto_ok (co_cs cod) -> co_encrypting cod = true -> 1 <= c -> (N.of_nat c + 17 < 2 ^ 64)%N ->
    convert_stream (codec_pipe cod c) src w (Ok tt) w' -> (lenN (flat src) < 2 ^ 64)%N ->
    (lenN (flat src') < 2 ^ 64)%N ->
    ~ forgery (co_cs cod) (co_key cod) (sealed_data (co_cs cod) (co_key cod) (co_header_hash cod) c (flat src))
        (presented (co_header_hash cod) (c + 16) src') ->
    convert_stream (codec_pipe (decrypting cod) c) src' v r v' -> w_out w' <> w_out w ++ flat src' ->
    exists e, r = Err e.
Proof.
  intros cod c src w w' src' v r v' Hcs He Hc H64 HE Hm Hs NF HD Hne.
  destruct (C20_tampering_is_detected cod c src w w' src' Hcs He Hc H64 HE Hm Hs) as [F|H]; [contradiction|].
  destruct (H v r v' HD) as [_ H1].
  destruct (convert_stream_spec _ (dec_pipe_ok cod Hcs c H64) _ _ _ _ HD) as (_ & _ & H3 & _).
  destruct r as [[]|e|]; [|eauto|contradiction]. exfalso. apply Hne. apply H1. reflexivity.
Qed.
Print Assumptions C20_modified_streams_are_refused.

(** ** A concrete case: seven bytes in chunks of three, with a toy cipher *)

Definition ex_cod : codec := mkCodec toy_cs (repeat x07 32) (repeat x09 32) true.
Definition ex_plain : source := [RData [x61; x62; x63; x64]; RInterrupted; RData [x65; x66; x67]].
Definition ex_empty : sink := mkSink [] None true false.
Definition ex_body : bytes := w_out (s_sink (schedule 400 (codec_pipe ex_cod 3) (start ex_plain ex_empty))).
Definition ex_decrypt (b : bytes) : pstate := schedule 400 (codec_pipe (decrypting ex_cod) 3) (start [RData b] ex_empty).

Lemma ex_encrypted : convert_stream (codec_pipe ex_cod 3) ex_plain ex_empty (Ok tt) (mkSink ex_body None true true).
Proof. eexists. split; [apply (schedule_steps 400)|]. split; vm_compute; reflexivity. Qed.

Example C18_C19_case :
  length ex_body = 7 + 16 * 3 /\
  s_mn (ex_decrypt ex_body) = MRet (Ok tt) /\ w_out (s_sink (ex_decrypt ex_body)) = [x61; x62; x63; x64; x65; x66; x67].
Proof. split; [vm_compute; reflexivity|]. split; vm_compute; reflexivity. Qed.

(** Dropping the last chunk, exchanging the first two, appending a byte, flipping a bit. *)
Example C20_case :
  let cut := firstn 38 ex_body in
  let swapped := firstn 19 (skipn 19 ex_body) ++ firstn 19 ex_body ++ skipn 38 ex_body in
  let longer := ex_body ++ [x00] in
  let flipped := firstn 20 ex_body ++ [x00] ++ skipn 21 ex_body in
  map (fun b => (s_mn (ex_decrypt b), w_out (s_sink (ex_decrypt b)))) [cut; swapped; longer; flipped] =
  [(MRet (Err ECorrupt), [x61; x62; x63]); (MRet (Err ECorrupt), []);
   (MRet (Err ECorrupt), [x61; x62; x63; x64; x65; x66]); (MRet (Err ECorrupt), [x61; x62; x63])].
Proof. vm_compute. reflexivity. Qed.

(** None of these streams contains a forgery, so the theorems do apply to them. *)
Definition accepted_b (s : sealed) : bool :=
  let k := length (se_ct s) - 16 in
  Nat.leb 16 (length (se_ct s)) &&
  match cs_aead_decrypt toy_cs (firstn k (se_ct s)) (se_ad s) (co_key ex_cod) (se_nonce s) (skipn k (se_ct s)) with
  | Some _ => true | None => false end.

Lemma accepted_b_ok s : accepted toy_cs (co_key ex_cod) s -> accepted_b s = true.
Proof.
  intros (ct & tag & m & E & Hl & Hd). unfold accepted_b. rewrite E, app_length, Hl.
  replace (length ct + 16 - 16) with (length ct) by lia. rewrite firstn_app_exact, skipn_app_exact, Hd.
  rewrite andb_true_r. apply Nat.leb_le. lia.
Qed.

Definition no_forgery_b (made shown : list sealed) : bool :=
  forallb (fun s => negb (accepted_b s) || existsb (fun t =>
     bytes_eqb (se_nonce s) (se_nonce t) && bytes_eqb (se_ad s) (se_ad t) && bytes_eqb (se_ct s) (se_ct t)) made) shown.

Lemma no_forgery_b_ok made shown : no_forgery_b made shown = true -> ~ forgery toy_cs (co_key ex_cod) made shown.
Proof.
  intros H (s & Hs & Ha & Hn). unfold no_forgery_b in H. rewrite forallb_forall in H. specialize (H s Hs).
  rewrite (accepted_b_ok s Ha) in H. cbn in H. apply existsb_exists in H. destruct H as (t & Ht & E).
  apply andb_prop in E. destruct E as [E E3]. apply andb_prop in E. destruct E as [E1 E2].
  apply bytes_eqb_eq in E1, E2, E3. apply Hn. destruct s, t. cbn in E1, E2, E3. subst. exact Ht.
Qed.

Example C20_case_applies :
  let flipped := [RData (firstn 20 ex_body ++ [x00] ++ skipn 21 ex_body)] in
  ~ forgery toy_cs (co_key ex_cod) (sealed_data toy_cs (co_key ex_cod) (co_header_hash ex_cod) 3 (flat ex_plain))
      (presented (co_header_hash ex_cod) (3 + 16) flipped) /\
  ex_body <> flat flipped /\
  forall v r v', convert_stream (codec_pipe (decrypting ex_cod) 3) flipped v r v' -> exists e, r = Err e.
Proof.
  intros flipped.
  assert (NF : ~ forgery toy_cs (co_key ex_cod) (sealed_data toy_cs (co_key ex_cod) (co_header_hash ex_cod) 3 (flat ex_plain))
      (presented (co_header_hash ex_cod) (3 + 16) flipped)) by (apply no_forgery_b_ok; vm_compute; reflexivity).
  assert (Hne : ex_body <> flat flipped) by (vm_compute; discriminate).
  split; [assumption|]. split; [assumption|]. intros v r v' HD.
  refine (C20_modified_streams_are_refused ex_cod 3 ex_plain ex_empty (mkSink ex_body None true true) flipped v r v'
            toy_ok eq_refl _ _ ex_encrypted _ _ NF HD Hne); [lia|vm_compute; reflexivity..].
Qed.

(** Chunk encryption over whole streams. *)
From Coq Require Import List NArith Bool Lia Arith.
From Coq.Strings Require Import Byte.
From Verif Require Import Base BaseFacts Shamir Errors Io HeaderIoSpec HeaderIoProofs Crypto HeaderCrypto StreamCrypto Pipeline
  PipelineSpec StreamSpec ChunkProofs PipelineProofs PipelineProofs2 PipelineProofs3 FileCrypto.
Import ListNotations.

(** ** Any converter: the pipeline's result in terms of the sequential loop *)

Section Any.
Context (p : pipe) (Hok : pipe_ok p).

Lemma convert_stream_spec src w r w' : convert_stream p src w r w' ->
  w_out w' = seq_out (p_conv p) (input_buffer_size p) src w /\
  (r = Ok tt <-> seq_success (p_conv p) (input_buffer_size p) src w) /\
  r <> Panic /\ (r = Ok tt -> w_flushed w' = true).
Proof.
  intros (s & Hs & Hr & <-). destruct (inv_reach p src w Hok s Hs) as (nr & nc & ns & nw & nd & nm & out & I).
  destruct (inv_final p src w (Hn p Hok) _ _ _ _ _ _ _ _ _ I Hr) as (H1 & H2 & H3 & H4 & _). auto.
Qed.

Lemma convert_stream_exists src w : exists r w', convert_stream p src w r w'.
Proof.
  destruct (can_return p src w Hok (start src w) (StepsRefl _ _)) as (s & r & Hs & Hr).
  exists r, (s_sink s). exists s. auto.
Qed.

End Any.

(** ** The codec *)

Section Codec.
Context (cod : codec) (Hcs : crypto_ok (co_cs cod)).

Lemma encrypt_chunk_ok : co_encrypting cod = true -> forall b l i, exists ct,
  convert_chunk cod b l i = Ok ct /\ length ct = length b + 16 /\
  convert_chunk (decrypting cod) ct l i = Ok b.
Proof.
  intros He b l i. unfold convert_chunk. rewrite He. cbn [co_encrypting decrypting co_cs co_key co_header_hash].
  remember (chunk_ad (co_header_hash cod) l) as ad. remember (chunk_nonce i) as nn.
  destruct (cs_aead_encrypt (co_cs cod) b ad (co_key cod) nn) as [m t] eqn:Ee.
  pose proof (aead_len _ Hcs b ad (co_key cod) nn) as Hl. rewrite Ee in Hl. cbn in Hl.
  pose proof (aead_mac_len _ Hcs b ad (co_key cod) nn) as Ht. rewrite Ee in Ht. cbn [snd] in Ht.
  pose proof (aead_inv _ Hcs b ad (co_key cod) nn) as Hi. rewrite Ee in Hi. cbn [fst snd] in Hi.
  exists (m ++ t). split; [reflexivity|]. unfold AEAD_MAC_LEN in *.
  assert (Hlen : length (m ++ t) = length b + 16) by (rewrite app_length; lia).
  split; [assumption|].
  destruct (Nat.ltb_spec (length (m ++ t)) 16); [lia|].
  replace (length (m ++ t) - 16) with (length m) by lia.
  rewrite firstn_app_exact, skipn_app_exact, Hi. rewrite Hl. rewrite firstn_all. reflexivity.
Qed.

Lemma codec_sized b l i b' : convert_chunk cod b l i = Ok b' ->
  length b' + input_asize cod = length b + output_asize cod.
Proof.
  intros H. unfold input_asize, output_asize. destruct (co_encrypting cod) eqn:He.
  - destruct (encrypt_chunk_ok He b l i) as (ct & Hc & Hl & _). rewrite Hc in H. injection H as <-.
    unfold AEAD_MAC_LEN. lia.
  - unfold convert_chunk in H. rewrite He in H.
    destruct (Nat.ltb_spec (length b) AEAD_MAC_LEN) as [Hx|Hx]; [discriminate|].
    destruct (cs_aead_decrypt _ _ _ _ _ _) as [m|] eqn:Ed; [|discriminate]. injection H as <-.
    apply (aead_dec_len _ Hcs) in Ed. rewrite firstn_length in *. unfold AEAD_MAC_LEN in *. lia.
Qed.

Lemma codec_pipe_ok c : (N.of_nat c + 17 < two64)%N -> (1 <= c \/ co_encrypting cod = false) ->
  pipe_ok (codec_pipe cod c).
Proof.
  intros Hc H1. split; [|split].
  - unfold input_buffer_size. cbn. unfold input_asize, AEAD_MAC_LEN. destruct H1 as [H1|H1]; [lia|rewrite H1; lia].
  - unfold buffer_capacity. cbn [p_chunk_size p_in_asize p_out_asize codec_pipe]. unfold input_asize, output_asize, AEAD_MAC_LEN.
    destruct (co_encrypting cod); cbn [Nat.max]; lia.
  - cbn. intros b l i b' _. apply codec_sized.
Qed.

End Codec.

(** ** Encrypting a byte string *)

Section Enc.
Context (cod : codec) (Hcs : crypto_ok (co_cs cod)) (He : co_encrypting cod = true).
Context (c : nat) (Hc : 1 <= c).
Let dec := decrypting cod.

(** The encrypted chunks of a plaintext. *)
Definition enc_chunks (m : bytes) : list bytes := fst (convert_seq (convert_chunk cod) 0 (flag_last (chunks c m))).

Lemma convert_seq_all conv k E : (forall b l i, exists b', conv b l i = Ok b') ->
  length (fst (convert_seq conv k E)) = length E.
Proof.
  intros H. revert k. induction E as [|[b l] E IH]; intros k; [reflexivity|]. cbn.
  destruct (H b l (wrap64 (N.of_nat k))) as [b' ->]. specialize (IH (S k)).
  destruct (convert_seq conv (S k) E). cbn in *. lia.
Qed.

Lemma enc_total b l i : exists b', convert_chunk cod b l i = Ok b'.
Proof. destruct (encrypt_chunk_ok cod Hcs He b l i) as (ct & H & _). eauto. Qed.

Lemma enc_chunks_length m : length (enc_chunks m) = length (chunks c m).
Proof. unfold enc_chunks. rewrite convert_seq_all, flag_last_length by apply enc_total. reflexivity. Qed.

Lemma enc_chunks_nth m i : i < length (chunks c m) ->
  let l := Nat.eqb (S i) (length (chunks c m)) in
  convert_chunk cod (nth i (chunks c m) []) l (wrap64 (N.of_nat i)) = Ok (nth i (enc_chunks m) []) /\
  length (nth i (enc_chunks m) []) = length (nth i (chunks c m) []) + 16 /\
  convert_chunk dec (nth i (enc_chunks m) []) l (wrap64 (N.of_nat i)) = Ok (nth i (chunks c m) []).
Proof.
  intros Hi l. pose proof (enc_chunks_length m) as Hl.
  pose proof (convert_seq_nth (convert_chunk cod) 0 (flag_last (chunks c m)) i) as H.
  fold (enc_chunks m) in H. specialize (H ltac:(lia)). unfold conv_at in H.
  rewrite flag_last_nth in H by assumption. cbn [fst snd] in H. fold l in H. cbn [Nat.add] in H.
  destruct (encrypt_chunk_ok cod Hcs He (nth i (chunks c m) []) l (wrap64 (N.of_nat i))) as (ct & H1 & H2 & H3).
  assert (Ect : ct = nth i (enc_chunks m) []) by congruence. rewrite <- Ect. auto.
Qed.

(** The decryptor cuts the ciphertext where the encryptor did. *)
Lemma enc_chunks_split m : is_split (c + 16) (concat (enc_chunks m)) (enc_chunks m).
Proof.
  pose proof (enc_chunks_length m) as Hl. pose proof (chunks_length_pos c m Hc) as Hp.
  destruct (exists_last (l := enc_chunks m)) as (init & last & Hil); [intros H; rewrite H in Hl; cbn in Hl; lia|].
  rewrite Hil in Hl. rewrite app_length in Hl. cbn in Hl.
  exists init, last. split; [assumption|]. split; [rewrite Hil, concat_app; cbn; rewrite app_nil_r; reflexivity|].
  assert (Hlast : nth (length init) (enc_chunks m) [] = last).
  { rewrite Hil, app_nth2, Nat.sub_diag by lia. reflexivity. }
  split; [|split].
  - apply Forall_forall. intros x Hx. apply (In_nth _ _ []) in Hx. destruct Hx as (i & Hi & <-).
    assert (Hni : nth i init [] = nth i (enc_chunks m) []) by (rewrite Hil, app_nth1 by assumption; reflexivity).
    rewrite Hni. destruct (enc_chunks_nth m i) as (_ & -> & _); [lia|].
    rewrite chunks_nth_length; [reflexivity|assumption|lia].
  - rewrite <- Hlast. destruct (enc_chunks_nth m (length init)) as (_ & -> & _); [lia|].
    pose proof (chunks_nth_le c m (length init) [] Hc ltac:(lia)). lia.
  - intros _. rewrite <- Hlast. intros H. destruct (enc_chunks_nth m (length init)) as (_ & H' & _); [lia|].
    rewrite H in H'. cbn in H'. lia.
Qed.

Lemma enc_chunks_recut m : chunks (c + 16) (concat (enc_chunks m)) = enc_chunks m.
Proof. eapply split_unique; [|apply chunks_split|apply enc_chunks_split]; lia. Qed.

(** Size of the ciphertext. *)
Lemma enc_size m : length (concat (enc_chunks m)) = length m + 16 * length (chunks c m).
Proof.
  pose proof (enc_chunks_length m) as Hl.
  rewrite <- (chunks_concat c m Hc) at 2.
  assert (Hg : forall (a b : list bytes), length a = length b ->
    (forall i, i < length b -> length (nth i a []) = length (nth i b []) + 16) ->
    length (concat a) = length (concat b) + 16 * length b).
  { induction a as [|x a IH]; intros [|y b] H1 H2; cbn in H1; try discriminate; [reflexivity|].
    cbn. rewrite !app_length. rewrite (IH b); [|lia|].
    - specialize (H2 0 ltac:(cbn; lia)). cbn in H2. lia.
    - intros i Hi. apply (H2 (S i)). cbn. lia. }
  apply Hg; [assumption|]. intros i Hi. apply (enc_chunks_nth m i Hi).
Qed.

Lemma chunks_count m : length (chunks c m) = Nat.max 1 ((length m + c - 1) / c).
Proof.
  apply (chunks_ind c (fun m cs => length cs = Nat.max 1 ((length m + c - 1) / c)) Hc).
  - intros d H. cbn [length]. assert ((length d + c - 1) / c <= 1); [|lia].
    apply Nat.lt_succ_r, Nat.div_lt_upper_bound; lia.
  - intros d H IH. cbn [length]. rewrite IH, skipn_length.
    replace (length d + c - 1) with ((length d - c + c - 1) + 1 * c) by lia.
    rewrite Nat.div_add by lia.
    assert (1 <= (length d - c + c - 1) / c) by (apply Nat.div_le_lower_bound; lia). lia.
Qed.

(** Encryption of a stream, sequentially. *)
Lemma enc_seq src : ends_in_error src = false ->
  seq_converted (convert_chunk cod) c src = enc_chunks (flat src) /\
  seq_input_ok (convert_chunk cod) c src = true.
Proof.
  intros H. unfold seq_converted, seq_input_ok, input_chunks. rewrite H. split; [reflexivity|].
  cbn [negb andb]. apply convert_seq_ok. apply convert_seq_all. apply enc_total.
Qed.

(** Decryption of the ciphertext, sequentially. *)
Lemma dec_converted m :
  convert_seq (convert_chunk dec) 0 (flag_last (enc_chunks m)) = (chunks c m, true).
Proof.
  pose proof (enc_chunks_length m) as Hl.
  set (E := flag_last (enc_chunks m)). set (R := convert_seq (convert_chunk dec) 0 E).
  assert (HE : length E = length (chunks c m)) by (unfold E; rewrite flag_last_length; assumption).
  assert (Hat : forall i, i < length E -> conv_at (convert_chunk dec) 0 E i = Ok (nth i (chunks c m) [])).
  { intros i Hi. unfold conv_at, E. rewrite flag_last_nth by lia. cbn [fst snd Nat.add]. rewrite Hl.
    apply (enc_chunks_nth m i). lia. }
  assert (Hlen : length (fst R) = length E).
  { pose proof (convert_seq_le (convert_chunk dec) 0 E) as Hle. fold R in Hle.
    destruct (Nat.eq_dec (length (fst R)) (length E)) as [|Hne]; [assumption|].
    exfalso. eapply (convert_seq_stop (convert_chunk dec) 0 E); [fold R; lia|]. fold R. apply Hat. lia. }
  destruct R as [out ok] eqn:ER. cbn [fst] in *. f_equal.
  - apply (list_ext []); [lia|]. intros i Hi.
    pose proof (convert_seq_nth (convert_chunk dec) 0 E i) as H. unfold R in ER. rewrite ER in H. cbn [fst] in H.
    specialize (H ltac:(lia)). rewrite Hat in H by lia. congruence.
  - pose proof (convert_seq_ok (convert_chunk dec) 0 E) as H. unfold R in ER. rewrite ER in H. apply H. assumption.
Qed.

Lemma dec_seq m src : flat src = concat (enc_chunks m) -> ends_in_error src = false ->
  seq_converted (convert_chunk dec) (c + 16) src = chunks c m /\
  seq_input_ok (convert_chunk dec) (c + 16) src = true.
Proof.
  intros Hf He'. unfold seq_converted, seq_input_ok, input_chunks. rewrite He', Hf, enc_chunks_recut, dec_converted.
  auto.
Qed.

End Enc.

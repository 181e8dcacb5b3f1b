(** The layout of an encrypted file, and what an accepted header looks like. *)
From Coq.Strings Require Import Byte String.
From Coq Require Import List NArith Bool Lia Arith.
From Verif Require Import Base BaseFacts Shamir Errors Io HeaderIo HeaderIoSpec HeaderIoProofs Crypto Proto ProtoSpec ProtoProofs
  HeaderCrypto SplitProofs CredSpec HeaderCryptoProofs HeaderCryptoProofs2 HeaderCryptoProofs3 StreamCrypto Pipeline PipelineSpec StreamSpec ChunkProofs
  FileCrypto AuthSpec FileSpec StreamProofs StreamProofs2 StreamProofs3 FileProofs FileProofs2 HideSpec.
Import ListNotations.

Lemma seal_easy cs m k n : aead_encrypt_easy cs m k n = se_ct (seal cs k n [] m).
Proof. unfold aead_encrypt_easy, seal. now destruct (cs_aead_encrypt cs m [] k n). Qed.

Lemma sealed_chunks cod c m : crypto_ok (co_cs cod) -> co_encrypting cod = true -> 1 <= c -> (lenN m < two64)%N ->
  enc_chunks cod c m = map se_ct (sealed_data (co_cs cod) (co_key cod) (co_header_hash cod) c m).
Proof.
  intros ok He Hc Hm.
  assert (L : length (enc_chunks cod c m) = length (map se_ct (sealed_data (co_cs cod) (co_key cod) (co_header_hash cod) c m))).
  { rewrite enc_chunks_length by assumption. unfold sealed_data. rewrite !map_length, combine_length, seq_length, flag_last_length. lia. }
  apply (nth_ext _ _ [] []); [exact L|]. intros i Hi. rewrite enc_chunks_length in Hi by assumption.
  assert (Hi64 : (N.of_nat i < two64)%N) by (eapply (count64 c); eassumption).
  destruct (enc_chunks_nth cod ok He c Hc m i Hi) as (H & _).
  unfold convert_chunk in H. rewrite He in H. rewrite chunk_nonce_spec in H by assumption.
  unfold sealed_data. rewrite map_map.
  set (F := fun x : nat * (bytes * bool) => se_ct (seal (co_cs cod) (co_key cod) (nonce_of_chunk (fst x)) (ad_of_chunk (co_header_hash cod) (snd (snd x))) (fst (snd x)))).
  rewrite (nth_indep (map _ _) [] (F (0, ([], false)))).
  2:{ rewrite map_length, combine_length, seq_length, flag_last_length. lia. }
  rewrite map_nth, combine_nth by (now rewrite seq_length, flag_last_length).
  rewrite seq_nth, flag_last_nth by assumption. unfold F, seal. cbn [fst snd Nat.add].
  change chunk_ad with ad_of_chunk in H.
  destruct (cs_aead_encrypt _ _ _ _ _) as [x y]. injection H as <-. reflexivity.
Qed.

Section Honest.
Variables (lib : crypto_lib) (opts : encrypt_options) (er : enc_random).
Hypothesis Hlib : lib_ok lib.
Hypothesis Hr : random_ok er.
Hypothesis Hwf : wf_cred (expression opts).

Lemma layout_sized src w w' : encrypt_stream lib opts er src w (Ok tt) w' -> (lenN (flat src) < two64)%N ->
  exists cs ser frame h p c,
    ((1 <= c)%N /\ (lenN (leaves (expression opts)) < two32)%N) /\
    lib (chosen opts) = Some cs /\
    w_out w' = w_out w ++ frame ++ concat (map se_ct (sealed_data cs (er_payload_key er) (cs_hash cs ser) (N.to_nat c) (flat src))) /\
    is_frame ser frame /\ decode_header ser = Some h /\ announced ser = chosen opts /\
    hd_ephemeral_pk h = fst (cs_keypair cs (er_seed er)) /\
    hd_protected h = se_ct (seal cs (er_payload_key er) nonce_of_header [] p) /\
    decode_protected p = Some (mkProtected 1 (hd_ephemeral_pk h) c) /\
    length (header_keys ser) = length (leaves (expression opts)) /\
    forall i r ct, nth_error (leaves (expression opts)) i = Some r -> nth_error (header_keys ser) i = Some ct ->
      exists m, sealed_for cs (hd_ephemeral_pk h) (snd (cs_keypair cs (er_seed er))) i r m ct.
Proof.
  intros HE Hm. destruct (encrypt_header lib opts er) as [[[ser cod] chunk]|e|] eqn:Henc.
  2,3: unfold encrypt_stream in HE; rewrite Henc in HE; destruct HE; discriminate.
  destruct (encrypt_stream_ok lib opts er ser cod chunk Hlib Hr Henc _ _ _ HE) as (HL & Ho & _).
  destruct (header_ciphertexts lib opts er ser cod chunk Hwf Henc HL) as (h0 & Hd0 & _ & Hk & H32 & _).
  destruct (cod_parts lib opts er ser cod chunk Hlib Henc) as (Hok & Hen & Hch & Hhash & Hkey).
  pose proof (c_pos lib opts er ser cod chunk Hr Henc) as Hc.
  destruct (decode_ser lib opts er ser cod chunk Hwf Henc HL) as (t & l & [i' r'] & He & Hd & Hlen).
  rewrite sealed_chunks, Hkey, Hhash in Ho by assumption.
  exists (co_cs cod), ser, (frame_of ser). eexists. exists (encode_protected (mkProtected 1 (fst (cs_keypair (co_cs cod) (er_seed er))) chunk)), chunk.
  split; [split; [lia|exact H32]|]. split; [exact Hch|]. split; [exact Ho|].
  split; [apply frame_spec; [unfold MAX_HEADER_LEN, two32 in *; lia|reflexivity]|].
  split; [exact Hd|]. cbn [hd_ephemeral_pk hd_protected].
  split; [unfold announced; rewrite Hd; unfold chosen, cryptofamily_from_opts; now destruct (eo_fast opts)|].
  split; [reflexivity|]. split; [rewrite seal_easy, Hkey; reflexivity|].
  split.
  { apply protected_round_trip; [reflexivity| |].
    - cbn [ph_chunk_size]. pose proof (chunk_bounds lib opts er ser cod chunk Hr Henc). unfold two64. lia.
    - cbn [ph_sender_pk]. unfold lenN. rewrite (keypair_pk_len _ Hok). reflexivity. }
  split; [exact Hk|].
  assert (Hhk : header_keys ser = encrypted_keys (KComp t l)) by (unfold header_keys; rewrite Hd; reflexivity).
  destruct (all_placed _ _ (expression opts) _ 0%N _ _ _ _ eq_refl He) as [[_ Hp2] _].
  intros i r ct Hi Hct. rewrite Hhk in Hct. destruct (Hp2 i r ct Hi Hct) as [m Hmm]. exists m.
  assert (Hib : (N.of_nat i < two32)%N).
  { assert (i < length (leaves (expression opts))) by (apply nth_error_Some; congruence). unfold lenN in H32. lia. }
  rewrite N.add_0_l, wrap32_small in Hmm by assumption. unfold sealed_for.
  destruct r; cbn [leaf_encryption by_secret by_public_key key_of_recipient] in *; try contradiction.
  - destruct Hmm as (k & Ek & ->). injection Ek as <-. eexists. split; [reflexivity|]. left. split; [reflexivity|].
    rewrite secret_nonce_spec, seal_easy. reflexivity.
  - destruct Hmm as (k' & Ek & ->). injection Ek as <-. eexists. split; [reflexivity|]. left. split; [reflexivity|].
    rewrite secret_nonce_spec, seal_easy. reflexivity.
  - unfold box_encrypt_easy in Hmm. destruct (cs_beforenm _ _ _) as [kk|]; [|discriminate].
    exists kk. split; [reflexivity|]. right. split; [reflexivity|]. rewrite box_nonce_spec in Hmm.
    destruct (cs_box_seal (co_cs cod) m (box_nonce_of_recipient i) kk) as [x y]. injection Hmm as <-. reflexivity.
Qed.

Lemma layout src w w' : encrypt_stream lib opts er src w (Ok tt) w' -> (lenN (flat src) < two64)%N ->
  exists cs ser frame h p c,
    lib (chosen opts) = Some cs /\
    w_out w' = w_out w ++ frame ++ concat (map se_ct (sealed_data cs (er_payload_key er) (cs_hash cs ser) (N.to_nat c) (flat src))) /\
    is_frame ser frame /\ decode_header ser = Some h /\ announced ser = chosen opts /\
    hd_ephemeral_pk h = fst (cs_keypair cs (er_seed er)) /\
    hd_protected h = se_ct (seal cs (er_payload_key er) nonce_of_header [] p) /\
    decode_protected p = Some (mkProtected 1 (hd_ephemeral_pk h) c) /\
    length (header_keys ser) = length (leaves (expression opts)) /\
    forall i r ct, nth_error (leaves (expression opts)) i = Some r -> nth_error (header_keys ser) i = Some ct ->
      exists m, sealed_for cs (hd_ephemeral_pk h) (snd (cs_keypair cs (er_seed er))) i r m ct.
Proof.
  intros HE Hm. destruct (layout_sized src w w' HE Hm) as (cs & ser & frame & h & p & c & _ & H).
  exists cs, ser, frame, h, p, c. exact H.
Qed.
End Honest.

(** ** Accepted headers *)

Lemma bytes_eqb_true a b : bytes_eqb a b = true -> a = b.
Proof. apply bytes_eqb_eq. Qed.

Lemma accepted_header lib ser D cod chunk : decrypt_header lib ser D = Ok (cod, chunk) ->
  exists h k ct tag p,
    decode_header ser = Some h /\
    hd_family h = Some (if announced ser then 1 else 2)%N /\ lib (announced ser) = Some (co_cs cod) /\
    length (hd_ephemeral_pk h) = 32 /\ hd_payload_key h = Some k /\ length (co_key cod) = 32 /\
    hd_protected h = ct ++ tag /\ length tag = 16 /\
    cs_aead_decrypt (co_cs cod) ct [] (co_key cod) nonce_of_header tag = Some p /\
    decode_protected p = Some (mkProtected 1 (hd_ephemeral_pk h) chunk) /\
    co_header_hash cod = cs_hash (co_cs cod) ser /\ co_encrypting cod = false.
Proof.
  unfold decrypt_header. intros H.
  destruct (decode_header ser) as [h|] eqn:Ed; [|discriminate]. cbn [bind] in H.
  apply bind_ok in H as (cs & Hcs & H). apply bind_ok in H as ([] & He & H). apply bind_ok in H as (ds & _ & H).
  apply bind_ok in H as (ek & Hk & H). apply bind_ok in H as ([ko ?] & _ & H). apply bind_ok in H as (key & _ & H).
  apply bind_ok in H as ([] & Hl & H).
  destruct (aead_decrypt_easy cs (hd_protected h) key ENCRYPTED_HEADER_NONCE) as [p|] eqn:Ep; [|discriminate]. cbn [bind] in H.
  destruct (decode_protected p) as [ph|] eqn:Eph; [|discriminate]. cbn [bind] in H.
  apply bind_ok in H as ([] & Hck & H). apply bind_ok in H as (? & Ha & H). injection H as <- <-.
  apply ensure_ok in He. apply ensure_ok in Hl. apply Nat.eqb_eq in He, Hl.
  destruct (hd_payload_key h) as [k|] eqn:Ek; [|discriminate].
  unfold aead_decrypt_easy in Ep. destruct (Nat.ltb_spec (length (hd_protected h)) AEAD_MAC_LEN) as [|L]; [discriminate|].
  exists h, k, (firstn (length (hd_protected h) - 16) (hd_protected h)), (skipn (length (hd_protected h) - 16) (hd_protected h)), p. split; [reflexivity|].
  assert (X : hd_family h = Some (if announced ser then 1 else 2)%N /\ lib (announced ser) = Some cs).
  { unfold announced. rewrite Ed. unfold cryptosys_from_proto in Hcs. destruct h as [fam e pk pr]. cbn [hd_family] in *.
    destruct fam as [a|]; [|discriminate].
    destruct (N.eqb_spec a 1) as [->|]; [cbn [bind] in Hcs; destruct (lib _); [|discriminate]; injection Hcs as ->; auto|].
    destruct (N.eqb_spec a 2) as [->|]; [cbn [bind] in Hcs; destruct (lib _); [|discriminate]; injection Hcs as ->; auto|discriminate]. }
  destruct X as [X1 X2]. split; [exact X1|]. split; [exact X2|]. split; [exact He|]. split; [exact Ek|]. split; [exact Hl|].
  split; [symmetry; apply firstn_skipn|]. split; [rewrite skipn_length; unfold AEAD_MAC_LEN in *; lia|].
  split; [exact Ep|]. split; [|split; reflexivity]. rewrite Eph. f_equal. destruct ph as [a s c]. cbn [ph_auth_type ph_sender_pk ph_chunk_size] in *.
  destruct (N.eqb_spec a 1) as [->|]; [|discriminate]. apply ensure_ok, bytes_eqb_true in Ha. now subst.
Qed.

(** Whole files. *)
From Coq Require Import List NArith Bool Lia Arith.
From Coq.Strings Require Import Byte.
From Verif Require Import Base BaseFacts Shamir Errors Io HeaderIo HeaderIoSpec HeaderIoProofs Crypto Proto ProtoProofs HeaderCrypto
  SplitProofs CredSpec HeaderCryptoProofs HeaderCryptoProofs2 HeaderCryptoProofs3 StreamCrypto Pipeline PipelineProofs PipelineSpec StreamSpec
  ChunkProofs FileCrypto AuthSpec FileSpec StreamProofs StreamProofs2 StreamProofs3.
Import ListNotations.

(** ** Writing the header *)

Lemma write_header_ok w h w1 : write_header w h = (Ok tt, w1) ->
  (lenN h <= MAX_HEADER_LEN)%N /\ w_out w1 = w_out w ++ frame_of h /\ w_flush_ok w1 = w_flush_ok w /\
  forall n, room_for w1 n <-> room_for w (length (frame_of h) + n).
Proof.
  intros H. destruct (N.le_gt_cases (lenN h) MAX_HEADER_LEN) as [L|L].
  2:{ rewrite write_header_too_large in H by assumption. discriminate. }
  split; [assumption|].
  assert (Hf : w_flush_ok w1 = w_flush_ok w).
  { assert (Hwa : forall w d r w', write_all w d = (r, w') -> w_flush_ok w' = w_flush_ok w).
    { clear. intros w d r w'. unfold write_all. destruct (w_room w); [destruct (Nat.leb _ _)|]; intros H; injection H as <- <-; reflexivity. }
    unfold write_header in H. destruct (negb _); [discriminate|].
    destruct (write_all w _) as [[[]|e|] w2] eqn:E1; try discriminate. apply Hwa in E1.
    destruct (write_all w2 h) as [[[]|e|] w3] eqn:E2; try discriminate. apply Hwa in E2.
    destruct (0 <? _)%N.
    - apply Hwa in H. congruence.
    - injection H as <-. congruence. }
  destruct (write_header_spec w h L) as (r & w' & E & [(_ & A & _ & B)|(A & _)]); rewrite H in E; injection E as <- <-; [auto|discriminate].
Qed.

(** ** The algorithm *)

Lemma chosen_lib lib opts cs : cryptosys_from_proto lib (cryptofamily_from_opts (eo_fast opts)) = Ok cs -> lib (chosen opts) = Some cs.
Proof.
  unfold cryptosys_from_proto, cryptofamily_from_opts, chosen. destruct (eo_fast opts); cbn [N.eqb Pos.eqb bind];
    destruct (lib _); intros H; try discriminate; now injection H as <-.
Qed.

Lemma announced_lib lib ser h cs : decode_header ser = Some h -> cryptosys_from_proto lib (hd_family h) = Ok cs ->
  lib (announced ser) = Some cs.
Proof.
  unfold announced. intros ->. destruct h as [[a|] pk kd pr]; [|discriminate]. unfold cryptosys_from_proto. cbn [hd_family].
  destruct (N.eqb_spec a 1) as [->|H1]; [|destruct (N.eqb_spec a 2) as [->|H2]; [|discriminate]]; cbn [bind];
    destruct (lib _); intros H; try discriminate; now injection H as <-.
Qed.

Lemma decrypt_header_inv lib ser D cod chunk : decrypt_header lib ser D = Ok (cod, chunk) ->
  exists h p, decode_header ser = Some h /\ cryptosys_from_proto lib (hd_family h) = Ok (co_cs cod) /\
    aead_decrypt_easy (co_cs cod) (hd_protected h) (co_key cod) ENCRYPTED_HEADER_NONCE = Some p /\
    (exists ph, decode_protected p = Some ph /\ ph_chunk_size ph = chunk) /\
    check_chunk_size chunk = Ok tt /\ co_header_hash cod = cs_hash (co_cs cod) ser /\ co_encrypting cod = false.
Proof.
  unfold decrypt_header. intros H.
  destruct (decode_header ser) as [h|]; [|discriminate]. cbn [bind] in H.
  apply bind_ok in H as (cs & Hcs & H). apply bind_ok in H as (? & _ & H). apply bind_ok in H as (ds & _ & H).
  apply bind_ok in H as (ek & _ & H). apply bind_ok in H as ([ko ?] & _ & H). apply bind_ok in H as (key & _ & H).
  apply bind_ok in H as (? & _ & H).
  destruct (aead_decrypt_easy cs (hd_protected h) key ENCRYPTED_HEADER_NONCE) as [p|] eqn:Ep; [|discriminate]. cbn [bind] in H.
  destruct (decode_protected p) as [ph|] eqn:Eph; [|discriminate]. cbn [bind] in H.
  apply bind_ok in H as ([] & Hck & H). apply bind_ok in H as (? & _ & H). injection H as <- <-.
  exists h, p. cbn [co_cs co_key co_header_hash co_encrypting]. split; [reflexivity|]. split; [assumption|]. split; [assumption|].
  split; [eauto|]. auto.
Qed.

Lemma alg_eq_dec (a b : alg) : {a = b} + {a <> b}.
Proof. decide equality. Defined.

(** ** Honest files *)

Section Honest.
Variables (lib : crypto_lib) (opts : encrypt_options) (er : enc_random) (ser : bytes) (cod : codec) (chunk : N).
Hypothesis Hlib : lib_ok lib.
Hypothesis Hr : random_ok er.
Hypothesis Hwf : wf_cred (expression opts).
Hypothesis Henc : encrypt_header lib opts er = Ok (ser, cod, chunk).
Notation c := (N.to_nat chunk).
Notation protected_part := (encode_protected (mkProtected 1 (fst (cs_keypair (co_cs cod) (er_seed er))) chunk)).

Lemma chunk_bounds : (1 <= chunk <= 1052664)%N.
Proof.
  destruct (encrypt_header_inv _ _ _ _ _ _ Henc) as (cs & t & l & st & _ & _ & _ & _ & _ & ->).
  destruct Hr as [H _]. destruct (chosen_bounds er H). lia.
Qed.

Lemma c_pos : 1 <= c.
Proof. pose proof chunk_bounds. lia. Qed.
Lemma c_64 : (N.of_nat c + 17 < two64)%N.
Proof. pose proof chunk_bounds. rewrite N2Nat.id. unfold two64. lia. Qed.

Lemma cod_parts : crypto_ok (co_cs cod) /\ co_encrypting cod = true /\ lib (chosen opts) = Some (co_cs cod) /\
  co_header_hash cod = cs_hash (co_cs cod) ser /\ co_key cod = er_payload_key er.
Proof.
  destruct (encrypt_header_inv _ _ _ _ _ _ Henc) as (cs & t & l & st & Hcs & _ & _ & _ & -> & _). cbn.
  split; [eapply cryptosys_ok; eassumption|]. apply chosen_lib in Hcs. auto.
Qed.

Lemma ser_nonempty : (1 <= lenN ser)%N.
Proof.
  destruct (encrypt_header_inv _ _ _ _ _ _ Henc) as (cs & t & l & st & _ & _ & _ & -> & _).
  unfold lenN, encode_header. rewrite app_length. cbn [hd_family].
  unfold cryptofamily_from_opts. pose proof (enc_len_longer 1 (enc_enum 1 (if eo_fast opts then 2 else 1))). lia.
Qed.

Lemma encrypt_stream_ok src w w' : encrypt_stream lib opts er src w (Ok tt) w' ->
  (lenN ser <= MAX_HEADER_LEN)%N /\
  w_out w' = w_out w ++ frame_of ser ++ concat (enc_chunks cod c (flat src)) /\ w_flushed w' = true.
Proof.
  unfold encrypt_stream. rewrite Henc. intros H.
  destruct (write_header w ser) as [[[]|e|] w1] eqn:E; [|destruct H; discriminate|destruct H; discriminate].
  destruct (write_header_ok _ _ _ E) as (A & B & _ & _).
  destruct cod_parts as (Hok & He & _).
  destruct (encrypt_result cod Hok He c c_pos c_64 _ _ _ _ H) as (_ & H1 & _). destruct (H1 eq_refl) as [-> F].
  split; [assumption|]. rewrite B, <- app_assoc. auto.
Qed.

(** Encryption can succeed whenever source and sink work. *)
Lemma encrypt_stream_works src w : (lenN ser <= MAX_HEADER_LEN)%N -> ends_in_error src = false ->
  w_room w = None -> w_flush_ok w = true ->
  exists w', encrypt_stream lib opts er src w (Ok tt) w'.
Proof.
  intros HL Ee Hw Hf. unfold encrypt_stream. rewrite Henc.
  destruct (write_header_spec w ser HL) as (r & w1 & E & [(-> & A & _ & B)|(_ & Hn & _)]).
  2:{ exfalso. apply Hn. unfold room_for. rewrite Hw. exact Logic.I. }
  rewrite E. destruct (write_header_ok _ _ _ E) as (_ & _ & F & _).
  destruct cod_parts as (Hok & He & _).
  destruct (convert_stream_exists (codec_pipe cod c) (enc_pipe_ok cod Hok c c_pos c_64) src w1) as (r & w' & H).
  destruct (encrypt_result cod Hok He c c_pos c_64 _ _ _ _ H) as (H1 & _).
  assert (r = Ok tt) as ->; [|eauto]. apply H1. split; [assumption|]. split; [|congruence].
  apply B. unfold room_for. rewrite Hw. exact Logic.I.
Qed.

Lemma decode_ser : (lenN ser <= MAX_HEADER_LEN)%N -> exists t l st,
  encrypt_key_data (co_cs cod) (fst (cs_keypair (co_cs cod) (er_seed er))) (snd (cs_keypair (co_cs cod) (er_seed er))) (expression opts)
      (er_payload_key er) 0 (er_shares er) = Ok (KComp t l, st) /\
  decode_header ser = Some (mkHeader (cryptofamily_from_opts (eo_fast opts)) (fst (cs_keypair (co_cs cod) (er_seed er))) (Some (t, l))
     (aead_encrypt_easy (co_cs cod) protected_part (co_key cod) ENCRYPTED_HEADER_NONCE)) /\
  (length (encode_header (mkHeader (cryptofamily_from_opts (eo_fast opts)) (fst (cs_keypair (co_cs cod) (er_seed er))) (Some (t, l))
     (aead_encrypt_easy (co_cs cod) protected_part (co_key cod) ENCRYPTED_HEADER_NONCE))) = length ser).
Proof.
  intros HL. destruct (encrypt_header_inv _ _ _ _ _ _ Henc) as (cs & t & l & st & Hcs & _ & He & Hs & Hc & Hch).
  assert (E1 : co_cs cod = cs) by now rewrite Hc. assert (E2 : co_key cod = er_payload_key er) by now rewrite Hc.
  rewrite E1, E2. exists t, l, st. split; [assumption|]. rewrite Hch.
  remember (aead_encrypt_easy cs _ _ _) as ct. split; [|now rewrite Hs].
  assert (H64 : (lenN ser < 2 ^ 64)%N) by (unfold MAX_HEADER_LEN in HL; lia).
  rewrite Hs. apply (decode_encrypted opts er ser Hwf H64 cs t l st ct He). rewrite <- Hs. exact H64.
Qed.

(** Whoever gets the payload key out of the honest header gets the honest chunk size. *)
Lemma decrypt_ser D cod' chunk' : (lenN ser <= MAX_HEADER_LEN)%N ->
  decrypt_header lib ser D = Ok (cod', chunk') -> co_key cod' = co_key cod ->
  cod' = decrypting cod /\ chunk' = chunk.
Proof.
  intros HL H Hk. destruct (decode_ser HL) as (t & l & st & _ & Hd & _).
  destruct (decrypt_header_inv _ _ _ _ _ H) as (h & p & Hd' & Hcs & Hp & (ph & Hph & <-) & _ & Hh & Hf).
  rewrite Hd in Hd'. injection Hd' as <-. cbn [hd_family hd_protected] in *.
  destruct cod_parts as (Hok & He & Hlc & Hhh & _). apply chosen_lib in Hcs. rewrite Hlc in Hcs. injection Hcs as Hcs.
  rewrite <- Hcs in *. rewrite Hk in Hp. rewrite aead_easy_inv in Hp by assumption. injection Hp as <-.
  split.
  - destruct cod' as [x k hh e]. cbn in *. subst. unfold decrypting. now rewrite Hhh.
  - rewrite protected_round_trip in Hph; cbn [ph_auth_type ph_sender_pk ph_chunk_size].
    + now injection Hph as <-.
    + unfold two32. lia.
    + pose proof chunk_bounds. unfold two64. lia.
    + unfold lenN. rewrite (keypair_pk_len _ Hok). reflexivity.
Qed.

(** ** Round trip *)

Lemma file_round D src w w' src2 v r v' :
  encrypt_stream lib opts er src w (Ok tt) w' -> w_out w' = w_out w ++ flat src2 -> ends_in_error src2 = false ->
  Forall (decryption_cred (co_cs cod)) D ->
  no_accident (co_cs cod) (fst (cs_keypair (co_cs cod) (er_seed er))) D (leaves (expression opts)) (header_keys ser) ->
  decrypt_stream lib D src2 v r v' ->
  (sat (co_cs cod) D (expression opts) /\
     (r = Ok tt <-> room_for v (length (flat src)) /\ w_flush_ok v = true) /\
     (r = Ok tt -> w_out v' = w_out v ++ flat src /\ w_flushed v' = true)) \/
  (~ sat (co_cs cod) D (expression opts) /\ r = Err EInsufficientCredentials /\ v' = v).
Proof.
  intros HE Hf Ee HD Ha H. destruct (encrypt_stream_ok _ _ _ HE) as (HL & Ho & _).
  rewrite Ho in Hf. apply app_inv_head in Hf. symmetry in Hf.
  destruct (read_header_complete src2 ser _ (conj ser_nonempty HL) Hf) as (src3 & Hrd & F3 & E3).
  unfold decrypt_stream in H. rewrite Hrd in H.
  assert (H64 : (lenN ser < 2 ^ 64)%N) by (unfold MAX_HEADER_LEN in HL; lia).
  destruct (header_round lib opts er ser cod chunk D Hlib Hr Hwf Henc H64 HD Ha) as [[E S]|[E S]]; rewrite E in H.
  - left. split; [assumption|]. destruct cod_parts as (Hok & He & _).
    apply (decrypt_honest cod Hok He c c_pos c_64 _ _ _ _ _ F3 (eq_trans E3 Ee) H).
  - right. destruct H as [-> ->]. auto.
Qed.

(** ** Modified files *)

Lemma header_nonce_apart i : nonce_of_header <> nonce_of_chunk i.
Proof. unfold nonce_of_header, nonce_of_chunk. intros H. discriminate. Qed.

Lemma seal_nonce cs k n a m : se_nonce (seal cs k n a m) = n.
Proof. unfold seal. destruct (cs_aead_encrypt _ _ _ _ _). reflexivity. Qed.

Lemma presented_nonce h n s x : In x (presented h n s) -> exists i, se_nonce x = nonce_of_chunk i.
Proof. unfold presented. intros H. apply in_map_iff in H. destruct H as ([i q] & <- & _). exists i. reflexivity. Qed.

Notation made m := (made_for_file (co_cs cod) (co_key cod) (co_header_hash cod) c protected_part m).
Notation made_chunks m := (sealed_data (co_cs cod) (co_key cod) (co_header_hash cod) c m).

Lemma in_made m h n s x : In x (presented h n s) -> In x (made m) -> In x (made_chunks m).
Proof.
  intros H1 [<-|H2]; [|assumption]. apply presented_nonce in H1. destruct H1 as [i H1]. rewrite seal_nonce in H1.
  now apply header_nonce_apart in H1.
Qed.

Lemma file_tampered src w w' src' D ser' n rest cod' chunk' v v' :
  encrypt_stream lib opts er src w (Ok tt) w' -> (lenN (flat src) < two64)%N -> (lenN (flat src') < two64)%N ->
  read_header src' = Ok (ser', n, rest) -> decrypt_header lib ser' D = Ok (cod', chunk') -> co_key cod' = co_key cod ->
  decrypt_stream lib D src' v (Ok tt) v' ->
  forgery_alg lib (co_key cod) (chosen opts) (made (flat src))
     (announced ser') (presented (co_header_hash cod') (N.to_nat chunk' + 16) rest) \/
  collision lib (chosen opts) ser ser' \/
  (w_out w' = w_out w ++ flat src' /\ w_out v' = w_out v ++ flat src).
Proof.
  intros HE Hm Hs' Hrd Hdh Hk H. destruct (encrypt_stream_ok _ _ _ HE) as (HL & Ho & _).
  unfold decrypt_stream in H. rewrite Hrd, Hdh in H.
  destruct (read_header_sound _ _ _ _ Hrd) as (_ & Hfl & _ & _).
  assert (Hrest : (lenN (flat rest) < two64)%N).
  { rewrite Hfl in Hs'. unfold lenN in *. rewrite app_length in Hs'. lia. }
  destruct (decrypt_header_inv _ _ _ _ _ Hdh) as (h & p & Hd & Hcs & _ & _ & Hck & Hhh & Henc').
  pose proof (announced_lib _ _ _ _ Hd Hcs) as Hal.
  destruct cod_parts as (Hok & He & Hlc & Hhc & _).
  assert (Hok' : crypto_ok (co_cs cod')) by (eapply cryptosys_ok; eassumption).
  assert (H64' : (N.of_nat (N.to_nat chunk') + 17 < two64)%N).
  { apply check_chunk_size_iff in Hck. rewrite N2Nat.id. unfold two64. lia. }
  assert (Hp' : pipe_ok (codec_pipe cod' (N.to_nat chunk'))) by (apply codec_pipe_ok; auto).
  destruct (convert_stream_spec _ Hp' _ _ _ _ H) as (_ & Hs & _). destruct Hs as [Hs _]. specialize (Hs eq_refl).
  assert (Hbuf : input_buffer_size (codec_pipe cod' (N.to_nat chunk')) = N.to_nat chunk' + 16).
  { unfold input_buffer_size. cbn [p_chunk_size p_in_asize codec_pipe]. unfold input_asize. rewrite Henc'. reflexivity. }
  rewrite Hbuf in Hs. cbn [p_conv codec_pipe] in Hs. destruct Hs as (Hs & _ & _).
  set (k := N.to_nat chunk' + 16) in *. assert (Hk1 : 1 <= k) by (unfold k; lia).
  (* the first chunk *)
  unfold seq_input_ok in Hs. apply andb_prop in Hs. destruct Hs as [Hs1 Hs2]. apply negb_true_iff in Hs1.
  assert (HI : input_chunks k rest = flag_last (chunks k (flat rest))) by (unfold input_chunks; now rewrite Hs1).
  pose proof (chunks_length_pos k (flat rest) Hk1) as Hlen.
  destruct (input_chunks k rest) as [|[b l] tl] eqn:EI.
  { apply (f_equal (@length _)) in HI. rewrite flag_last_length in HI. cbn in HI. lia. }
  assert (Hacc : accepted (co_cs cod') (co_key cod') (mkSealed (nonce_of_chunk 0) (ad_of_chunk (co_header_hash cod') l) b)).
  { cbn in Hs2. change 0%N with (wrap64 (N.of_nat 0)) in Hs2. destruct (convert_chunk cod' b l (wrap64 (N.of_nat 0))) as [b'| |] eqn:Ec; try discriminate.
    apply (accept_chunk c c_pos (flat src) Hm cod' b l 0 b'); [assumption|exact Ec|reflexivity]. }
  assert (Hsh : In (mkSealed (nonce_of_chunk 0) (ad_of_chunk (co_header_hash cod') l) b) (presented (co_header_hash cod') k rest)).
  { pose proof (presented_in c c_pos (flat src) Hm (co_header_hash cod') k rest 0) as Hpi. rewrite EI in Hpi. apply Hpi. cbn. lia. }
  destruct (alg_eq_dec (announced ser') (chosen opts)) as [Ha|Ha].
  2:{ left. exists (co_cs cod'). eexists. split; [eassumption|]. split; [eassumption|]. rewrite <- Hk. split; [assumption|]. congruence. }
  destruct (in_dec sealed_eq_dec (mkSealed (nonce_of_chunk 0) (ad_of_chunk (co_header_hash cod') l) b) (made (flat src))) as [Hin|Hin].
  2:{ left. exists (co_cs cod'). eexists. split; [eassumption|]. split; [eassumption|]. split; [rewrite <- Hk; assumption|auto]. }
  apply (in_made _ _ _ _ _ Hsh) in Hin.
  destruct (made_in cod Hok He c c_pos (flat src) Hm _ Hin) as (i & Hi & Heq).
  apply (f_equal se_ad) in Heq. cbn [se_ad] in Heq. apply ad_inj in Heq. destruct Heq as [Hhash _].
  rewrite Ha in Hal. assert (Ecs : co_cs cod' = co_cs cod) by congruence.
  rewrite Hhh, Hhc, Ecs in Hhash.
  destruct (bytes_eq_dec ser ser') as [<-|Hne].
  2:{ right. left. exists (co_cs cod). split; [assumption|]. split; [assumption|congruence]. }
  destruct (decrypt_ser _ _ _ HL Hdh Hk) as [-> ->].
  destruct (tampered cod Hok He c c_pos c_64 (flat src) Hm rest Hrest) as [(s & F1 & F2 & F3)|[_ Ht]].
  - left. exists (co_cs cod), s. rewrite Ha. split; [assumption|]. split; [exact F1|]. split; [assumption|].
    intros _ Hx. apply F3. eapply in_made; eassumption.
  - right. right. destruct (Ht v (Ok tt) v' H) as [_ Hq]. destruct (Hq eq_refl) as [Hq1 Hq2].
    split; [|assumption]. rewrite Ho, Hfl, Hq1. reflexivity.
Qed.
End Honest.

(** Proofs about the contract of the crypto library, continued: headers, streams, files. *)
From Coq.Strings Require Import Byte String.
From Coq Require Import List Arith NArith Lia Bool.
From Verif Require Import Base BaseFacts Errors Shamir SplitProofs Io HeaderIo HeaderIoProofs Crypto Proto ProtoProofs HeaderCrypto HeaderCryptoProofs HeaderCryptoProofs2 HeaderCryptoProofs4.
From Verif Require Import CredSpec StreamSpec StreamCrypto Pipeline PipelineSpec PipelineProofs PipelineProofs3 StreamProofs StreamProofs3 FileCrypto FileProofs ConvProofs.
From Verif Require Import LibSodium ContractSpec ContractProofs.
Import ListNotations.

(** ** Two converters that agree on the chunks they are given *)

Section TwoPipes.
Variables p p' : pipe.
Hypothesis Hp : pipe_ok p.
Hypothesis Ha : p_in_asize p' = p_in_asize p /\ p_out_asize p' = p_out_asize p /\ p_chunk_size p' = p_chunk_size p.
Hypothesis Hconv : forall b l i, length b <= buffer_capacity p -> p_conv p b l i = p_conv p' b l i.

Lemma step_same src w s : steps p (start src w) s -> forall s', step p s s' <-> step p' s s'.
Proof.
  intros Hr s'. destruct (memory p src w Hp s Hr) as (_ & _ & _ & HM).
  assert (EC : step_codec p s = step_codec p' s).
  { unfold step_codec. destruct (s_cd s) as [|c|c|t|t] eqn:E; try reflexivity. rewrite <- Hconv; [reflexivity|].
    assert (Hin : In c (all_chunks s)).
    { unfold all_chunks, held_by_codec. rewrite E, !in_app_iff. cbn. tauto. }
    pose proof (proj1 (Forall_forall _ _) HM _ Hin) as HC. unfold cap_ok, CAP in HC. apply HC. }
  assert (EM : step_main p s = step_main p' s).
  { destruct Ha as (A1 & A2 & A3). unfold step_main, input_buffer_size, buffer_capacity. now rewrite A1, A2, A3. }
  split; intros [H|H|n H|H].
  - now apply StepReader. - apply StepCodec. congruence. - now apply (StepWriter _ _ _ n). - apply StepMain. congruence.
  - now apply StepReader. - apply StepCodec. congruence. - now apply (StepWriter _ _ _ n). - apply StepMain. congruence.
Qed.

Lemma steps_snoc q s s1 s2 : steps q s s1 -> step q s1 s2 -> steps q s s2.
Proof. induction 1; intros H1; [econstructor; [exact H1|constructor]|econstructor; eauto]. Qed.

Lemma steps_same src w s : steps p (start src w) s <-> steps p' (start src w) s.
Proof.
  assert (G : forall s0 s, steps p' s0 s -> steps p (start src w) s0 -> steps p (start src w) s).
  { induction 1 as [|s1 s2 s3 H _ IH]; intros Hr; [exact Hr|]. apply IH. eapply steps_snoc; [exact Hr|]. now apply (step_same src w). }
  assert (G' : forall s0 s, steps p s0 s -> steps p (start src w) s0 -> steps p' (start src w) s0 -> steps p' (start src w) s).
  { induction 1 as [|s1 s2 s3 H _ IH]; intros Hr Hr'; [exact Hr'|]. apply IH; [eapply steps_snoc; eauto|].
    eapply steps_snoc; [exact Hr'|]. now apply (step_same src w). }
  split; intros H; [eapply G'|eapply G]; try exact H; constructor.
Qed.

Lemma convert_same src w r w' : convert_stream p src w r w' <-> convert_stream p' src w r w'.
Proof.
  unfold convert_stream. split; intros (s & H1 & H2); exists s; (split; [|exact H2]); now apply steps_same.
Qed.
End TwoPipes.

(** ** Codecs *)

Definition codec_same (c c' : codec) : Prop :=
  crypto_ok (co_cs c) /\ same_within (co_cs c) (co_cs c') /\
  co_key c' = co_key c /\ co_header_hash c' = co_header_hash c /\ co_encrypting c' = co_encrypting c /\ length (co_key c) = 32.

Lemma chunk_same c c' b l i : codec_same c c' -> (lenN b <= message_limit)%N -> convert_chunk c b l i = convert_chunk c' b l i.
Proof.
  intros (Hok & Hs & E1 & E2 & E3 & HL) Hb. unfold convert_chunk. rewrite E1, E2, E3.
  assert (HN : length (chunk_nonce i) = 12) by (unfold chunk_nonce; rewrite app_length, le_bytes_length; reflexivity).
  destruct (co_encrypting c).
  - rewrite (s_encrypt _ _ Hs); [reflexivity|]. repeat split; auto.
  - unfold AEAD_MAC_LEN. destruct (Nat.ltb_spec (length b) 16); [reflexivity|].
    rewrite (s_decrypt _ _ Hs); [reflexivity| |rewrite skipn_length; lia]. repeat split; auto.
    unfold lenN in *. rewrite firstn_length. lia.
Qed.

Lemma codec_convert_same c c' chunk src w r w' : codec_same c c' -> (N.of_nat chunk <= MAX_CHUNK_SIZE)%N -> pipe_ok (codec_pipe c chunk) ->
  convert_stream (codec_pipe c chunk) src w r w' <-> convert_stream (codec_pipe c' chunk) src w r w'.
Proof.
  intros Hc HM HP. apply convert_same; [exact HP| |].
  - cbn. unfold input_asize, output_asize. destruct Hc as (_ & _ & _ & _ & -> & _). auto.
  - intros b l i Hb. cbn [p_conv codec_pipe]. apply chunk_same; [exact Hc|].
    unfold buffer_capacity in Hb. cbn in Hb. unfold input_asize, output_asize, AEAD_MAC_LEN in Hb.
    unfold message_limit, lenN. unfold MAX_CHUNK_SIZE in HM. destruct (co_encrypting c); cbn in Hb; lia.
Qed.

(** ** Headers *)

Inductive same_result {A} (R : A -> A -> Prop) : outcome err A -> outcome err A -> Prop :=
| SR_ok a a' : R a a' -> same_result R (Ok a) (Ok a')
| SR_err e : same_result R (Err e) (Err e)
| SR_panic : same_result R Panic Panic.

Section Libs.
Variables lib lib' : crypto_lib.
Hypothesis Hok : lib_ok lib.
Hypothesis Hc : lib_contract lib'.
Hypothesis Hs : lib_same_within lib lib'.

Definition good_pair cs cs' := crypto_ok cs /\ contract cs' /\ same_within cs cs'.

Lemma libs_pair a : match lib a, lib' a with Some cs, Some cs' => good_pair cs cs' | None, None => True | _, _ => False end.
Proof.
  pose proof (Hs a) as H. destruct (lib a) as [cs|] eqn:E, (lib' a) as [cs'|] eqn:E'; auto.
  split; [eapply Hok; eauto|split; [eapply Hc; eauto|auto]].
Qed.

Lemma cryptosys_same f : same_result good_pair (cryptosys_from_proto lib f) (cryptosys_from_proto lib' f).
Proof.
  unfold cryptosys_from_proto. destruct f as [a|]; [|constructor].
  destruct (a =? 1)%N; [|destruct (a =? 2)%N; [|constructor]]; cbn [bind].
  - pose proof (libs_pair ChaCha20Poly1305Ietf) as H. destruct (lib _), (lib' _); try contradiction; now constructor.
  - pose proof (libs_pair AES256GCM) as H. destruct (lib _), (lib' _); try contradiction; now constructor.
Qed.

Definition enc_rel (x x' : bytes * codec * N) : Prop :=
  fst (fst x) = fst (fst x') /\ codec_same (snd (fst x)) (snd (fst x')) /\ snd x = snd x'.

Lemma protected_small pk c : length pk = 32 -> small (encode_protected (mkProtected 1 pk c)).
Proof.
  intros H. unfold encode_protected. unfold small, lenN.
  cbn [ph_auth_type ph_sender_pk ph_chunk_size]. rewrite !app_length.
  pose proof (enc_bytes_max 2 pk) as H1.
  assert (H2 : length (enc_fixed64 4 c) <= 18).
  { unfold enc_fixed64. destruct (c =? 0)%N; [cbn; lia|]. rewrite app_length, le_bytes_length. cbn. lia. }
  change (length (enc_enum 1 1)) with 2. lia.
Qed.

Lemma encrypt_header_same opts er : random_ok er -> sized (expression opts) ->
  same_result enc_rel (encrypt_header lib opts er) (encrypt_header lib' opts er).
Proof.
  intros [Hr1 Hr2] HS. unfold encrypt_header.
  destruct (cryptosys_same (cryptofamily_from_opts (eo_fast opts))) as [cs cs' (K & C & S)| |]; cbn [bind]; [|constructor..].
  destruct (check_chunk_size (chosen_chunk_size er)); cbn [bind]; [|constructor..].
  rewrite <- (s_keypair _ _ S). pose proof (keypair_pk_len _ K (er_seed er)) as HP. pose proof (keypair_sk_len _ K (er_seed er)) as HSk.
  destruct (cs_keypair cs (er_seed er)) as [epk esk]. cbn [fst snd] in *.
  rewrite <- (aead_enc_same cs cs' S) by (auto using protected_small).
  fold (expression opts). rewrite <- (encrypt_same cs cs' K C S); auto.
  2: { unfold small, lenN. rewrite Hr2. lia. }
  destruct (encrypt_key_data cs epk esk (expression opts) (er_payload_key er) 0 (er_shares er)) as [[kd st]| |]; cbn [bind]; [|constructor..].
  constructor. rewrite <- (s_hash _ _ S). split; [reflexivity|]. split; [|reflexivity]. cbn [fst snd].
  split; [exact K|split; [exact S|auto]].
Qed.

Definition dec_rel (x x' : codec * N) : Prop := codec_same (fst x) (fst x') /\ snd x = snd x'.

Lemma decrypt_header_same ser D : (lenN ser <= MAX_HEADER_LEN)%N -> Forall sized D ->
  same_result dec_rel (decrypt_header lib ser D) (decrypt_header lib' ser D).
Proof.
  intros HL HS. unfold decrypt_header. destruct (decode_header ser) as [h|] eqn:Eh; cbn [bind]; [|constructor].
  destruct (header_below _ _ Eh) as [B1 B2].
  destruct (cryptosys_same (hd_family h)) as [cs cs' (K & C & S)| |]; cbn [bind]; [|constructor..].
  destruct (Nat.eqb_spec (length (hd_ephemeral_pk h)) PUBLIC_KEY_LEN) as [HP|]; cbn [ensure bind]; [|constructor].
  destruct (decryptors_same cs cs' K C S (hd_ephemeral_pk h) D HP HS) as [ds ds' HD| |]; cbn [bind]; [|constructor..].
  destruct (hd_payload_key h) as [[t l]|] eqn:Ek; cbn [bind fst snd]; [|constructor].
  rewrite <- (decrypt_same ds ds' (KComp t l) HD).
  2: { specialize (B2 _ _ eq_refl). unfold kd_below in B2. eapply Forall_impl; [|exact B2]. intros b Hb.
       unfold small, lenN in *. unfold MAX_HEADER_LEN in HL. lia. }
  destruct (decrypt_key_data ds (KComp t l) 0) as [[ko i]| |]; cbn [bind]; [|constructor..].
  destruct ko as [key|]; cbn [bind]; [|constructor].
  destruct (Nat.eqb_spec (length key) AEAD_KEY_LEN) as [HKy|]; cbn [ensure bind]; [|constructor].
  rewrite <- (aead_dec_same cs cs' S (hd_protected h)); auto.
  2: { unfold small, lenN in *. unfold MAX_HEADER_LEN in HL. lia. }
  destruct (aead_decrypt_easy cs (hd_protected h) key ENCRYPTED_HEADER_NONCE) as [p|]; cbn [bind]; [|constructor].
  destruct (decode_protected p) as [ph|]; cbn [bind]; [|constructor].
  destruct (check_chunk_size (ph_chunk_size ph)); cbn [bind]; [|constructor..].
  destruct (if (ph_auth_type ph =? 1)%N then _ else _) as [[]| |]; cbn [bind]; constructor.
  rewrite <- (s_hash _ _ S). split; [|reflexivity]. split; [exact K|split; [exact S|auto]].
Qed.

(** ** Streams *)

Lemma encrypt_stream_same opts er src w r w' : random_ok er -> sized (expression opts) ->
  encrypt_stream lib opts er src w r w' <-> encrypt_stream lib' opts er src w r w'.
Proof.
  intros Hr HS. unfold encrypt_stream. pose proof (encrypt_header_same opts er Hr HS) as H.
  destruct (encrypt_header lib opts er) as [[[ser cod] chunk]|e|] eqn:E; inversion H as [x [[ser' cod'] chunk'] HR E1 E2|e' E1 E2|E1 E2]; subst; try reflexivity.
  destruct HR as (R1 & R2 & R3). cbn [fst snd] in *. subst ser' chunk'.
  destruct (write_header w ser) as [[[]| |] w1]; try reflexivity.
  pose proof (c_pos _ _ _ _ _ _ Hr E) as P. pose proof (c_64 _ _ _ _ _ _ Hr E) as Q.
  destruct (cod_parts _ _ _ _ _ _ Hok E) as (Hcs & Hen & _).
  apply codec_convert_same; [exact R2| |apply codec_pipe_ok; auto].
  destruct (encrypt_header_inv _ _ _ _ _ _ E) as (cs & t & l & st & _ & Hck & _ & _ & _ & Ech).
  rewrite N2Nat.id. apply check_chunk_size_iff in Hck. unfold MAX_CHUNK_SIZE. rewrite Ech. apply Hck.
Qed.

Lemma decrypt_stream_same D src w r w' : Forall sized D ->
  decrypt_stream lib D src w r w' <-> decrypt_stream lib' D src w r w'.
Proof.
  intros HS. unfold decrypt_stream. destruct (read_header src) as [[[ser n] src']|e|] eqn:Er; try reflexivity.
  destruct (read_header_sound _ _ _ _ Er) as ((_ & HL) & _).
  pose proof (decrypt_header_same ser D HL HS) as H.
  destruct (decrypt_header lib ser D) as [[cod chunk]|e|] eqn:E; inversion H as [x [cod' chunk'] HR E1 E2|e' E1 E2|E1 E2]; subst; try reflexivity.
  destruct HR as (R1 & R2). cbn [fst snd] in *. subst chunk'.
  apply codec_convert_same; [exact R1| |eapply dec_codec_ok; eauto].
  destruct (decrypt_header_inv _ _ _ _ _ E) as (h & p & _ & _ & _ & _ & Hck & _). rewrite N2Nat.id.
  apply check_chunk_size_iff in Hck. unfold MAX_CHUNK_SIZE. apply Hck.
Qed.
End Libs.

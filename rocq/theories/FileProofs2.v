(** Nonces of a whole file. *)
From Coq Require Import List NArith Bool Lia Arith.
From Coq.Strings Require Import Byte.
From Verif Require Import Base BaseFacts Shamir Errors Io HeaderIo HeaderIoSpec HeaderIoProofs Crypto Proto ProtoProofs HeaderCrypto
  SplitProofs CredSpec HeaderCryptoProofs HeaderCryptoProofs2 HeaderCryptoProofs3 StreamCrypto Pipeline PipelineProofs PipelineSpec StreamSpec
  ChunkProofs FileCrypto AuthSpec FileSpec StreamProofs StreamProofs2 StreamProofs3 FileProofs.
Import ListNotations.

Lemma le_bytes_le n x : le_bytes n x = le n x.
Proof.
  revert x. induction n as [|n IH]; intros x; [reflexivity|]. unfold le in *. cbn [le_bytes seq map]. f_equal.
  - change (256 ^ N.of_nat 0)%N with 1%N. rewrite N.div_1_r. unfold n2b. rewrite N.mod_mod by discriminate. reflexivity.
  - rewrite IH, <- seq_shift, map_map. apply map_ext. intros k. f_equal.
    rewrite Nat2N.inj_succ, N.pow_succ_r', N.div_div; [reflexivity|discriminate|]. apply N.pow_nonzero. discriminate.
Qed.

Lemma secret_nonce_spec i : recipient_secret_nonce (N.of_nat i) = nonce_of_recipient i.
Proof. unfold recipient_secret_nonce, nonce_of_recipient. rewrite le_bytes_le. reflexivity. Qed.

Lemma box_nonce_spec i : recipient_box_nonce (N.of_nat i) = box_nonce_of_recipient i.
Proof. unfold recipient_box_nonce, box_nonce_of_recipient. rewrite le_bytes_le. reflexivity. Qed.

Lemma le_inj i j : (N.of_nat i < two32)%N -> (N.of_nat j < two32)%N -> le 4 (N.of_nat i) = le 4 (N.of_nat j) -> i = j.
Proof. intros Hi Hj H. rewrite <- !le_bytes_le in H. apply le_bytes_inj in H; [lia| |]; assumption. Qed.

Lemma secret_nonce_inj i j : (N.of_nat i < two32)%N -> (N.of_nat j < two32)%N -> nonce_of_recipient i = nonce_of_recipient j -> i = j.
Proof. intros Hi Hj H. apply app_inv_head in H. now apply le_inj. Qed.

Lemma box_nonce_inj i j : (N.of_nat i < two32)%N -> (N.of_nat j < two32)%N -> box_nonce_of_recipient i = box_nonce_of_recipient j -> i = j.
Proof. intros Hi Hj H. apply app_inv_head in H. now apply le_inj. Qed.

Lemma NoDup_map_on {A B} (f : A -> B) l : NoDup l -> (forall x y, In x l -> In y l -> f x = f y -> x = y) -> NoDup (map f l).
Proof.
  induction 1 as [|x l Hx Hl IH]; intros Hf; cbn; constructor.
  - rewrite in_map_iff. intros (y & E & Hy). apply Hx. rewrite <- (Hf y x); auto; [right; assumption|left; reflexivity].
  - apply IH. intros a b Ha Hb. apply Hf; right; assumption.
Qed.

Lemma positions_in f l i : In i (positions f l) -> i < length l.
Proof. unfold positions. intros H. apply filter_In in H. destruct H as [H _]. apply in_seq in H. lia. Qed.
Lemma positions_NoDup f l : NoDup (positions f l).
Proof. unfold positions. apply NoDup_filter, seq_NoDup. Qed.

Lemma NoDup_app' {A} (a b : list A) : NoDup a -> NoDup b -> (forall x, In x a -> In x b -> False) -> NoDup (a ++ b).
Proof.
  induction 1 as [|x a Hx Ha IH]; intros Hb H; [assumption|]. cbn. constructor.
  - rewrite in_app_iff. intros [Hy|Hy]; [auto|]. apply (H x); [left; reflexivity|assumption].
  - apply IH; [assumption|]. intros y Hy. apply H. right. assumption.
Qed.

Lemma all_nonces_distinct S n : NoDup S -> (forall i, In i S -> (N.of_nat i < two32)%N) ->
  (forall i, i < n -> (N.of_nat i < two64)%N) ->
  NoDup (nonce_of_header :: map nonce_of_recipient S ++ map nonce_of_chunk (seq 0 n)).
Proof.
  intros HS HS32 Hn. constructor.
  - rewrite in_app_iff, !in_map_iff. intros [(i & H & _)|(i & H & _)]; [discriminate|]. symmetry in H. now apply header_nonce_apart in H.
  - apply NoDup_app'.
    + apply NoDup_map_on; [assumption|]. intros i j Hi Hj. apply secret_nonce_inj; auto.
    + apply NoDup_map_on; [apply seq_NoDup|]. intros i j Hi Hj. apply in_seq in Hi, Hj. apply chunk_nonce_inj; apply Hn; lia.
    + intros x. rewrite !in_map_iff. intros (i & <- & _) (j & H & _). discriminate.
Qed.

Lemma keys_fit d : length (encrypted_keys d) <= length (enc_kdata d).
Proof.
  induction d as [|ct|t l IH] using kdata_rect'; [cbn; lia|cbn [encrypted_keys length enc_kdata]; rewrite enc_len_length|].
  - pose proof (enc_len_longer 2 ct). rewrite enc_len_length in H. lia.
  - rewrite enc_ckey_kcomp. pose proof (enc_len_longer 3 (enc_ckey (t, l))). unfold enc_ckey in H at 1. cbn [fst snd] in H.
    rewrite app_length in H.
    assert (length (encrypted_keys (KComp t l)) <= length (concat (map (fun p => enc_len 2 (enc_kparts p)) l))); [|lia].
    clear H. cbn [encrypted_keys]. induction IH as [|[k d] l Hd HF IHl]; [cbn; lia|]. cbn [map concat]. rewrite !app_length.
    pose proof (enc_len_longer 2 (enc_kparts (k, d))). unfold enc_kparts in H at 1. rewrite app_length in H. cbn [fst snd] in *. lia.
Qed.

Lemma aead_easy_with cs m k n : encrypted_with cs n (aead_encrypt_easy cs m k n).
Proof.
  unfold aead_encrypt_easy. destruct (cs_aead_encrypt cs m [] k n) as [c t] eqn:E. exists k, [], m, c, t. auto.
Qed.

Section Honest.
Variables (lib : crypto_lib) (opts : encrypt_options) (er : enc_random) (ser : bytes) (cod : codec) (chunk : N).
Hypothesis Hlib : lib_ok lib.
Hypothesis Hr : random_ok er.
Hypothesis Hwf : wf_cred (expression opts).
Hypothesis Henc : encrypt_header lib opts er = Ok (ser, cod, chunk).
Notation c := (N.to_nat chunk).

Lemma header_ciphertexts : (lenN ser <= MAX_HEADER_LEN)%N ->
  exists h, decode_header ser = Some h /\ encrypted_with (co_cs cod) nonce_of_header (hd_protected h) /\
    length (header_keys ser) = length (leaves (expression opts)) /\
    (lenN (leaves (expression opts)) < two32)%N /\
    forall i r ct, nth_error (leaves (expression opts)) i = Some r -> nth_error (header_keys ser) i = Some ct ->
      (by_secret r = true /\ encrypted_with (co_cs cod) (nonce_of_recipient i) ct) \/
      (by_public_key r = true /\ boxed_with (co_cs cod) (box_nonce_of_recipient i) ct).
Proof.
  intros HL. destruct (decode_ser lib opts er ser cod chunk Hwf Henc HL) as (t & l & [i' r'] & He & Hd & Hlen).
  eexists. split; [exact Hd|]. cbn [hd_protected]. split; [apply aead_easy_with|].
  assert (Hhk : header_keys ser = encrypted_keys (KComp t l)) by (unfold header_keys; rewrite Hd; reflexivity).
  rewrite Hhk. destruct (all_placed _ _ (expression opts) _ 0%N _ _ _ _ eq_refl He) as [[Hp1 Hp2] _].
  split; [assumption|].
  assert (H32 : (lenN (leaves (expression opts)) < two32)%N).
  { unfold lenN in *. rewrite <- Hp1. pose proof (keys_fit (KComp t l)) as Hk.
    rewrite enc_ckey_kcomp, enc_len_length in Hk.
    assert (length (enc_len 7 (enc_ckey (t, l))) <= length ser).
    { rewrite <- Hlen. unfold encode_header. cbn [hd_payload_key]. rewrite !app_length. lia. }
    rewrite enc_len_length in H.
    assert (length (enc_key 3 2) = length (enc_key 7 2)) by reflexivity.
    unfold MAX_HEADER_LEN in HL. unfold two32. lia. }
  split; [assumption|]. intros i r ct Hi Hct. destruct (Hp2 i r ct Hi Hct) as [m Hm].
  assert (Hib : (N.of_nat i < two32)%N).
  { assert (i < length (leaves (expression opts))) by (apply nth_error_Some; congruence). unfold lenN in H32. lia. }
  rewrite N.add_0_l, wrap32_small in Hm by assumption.
  destruct r; cbn [leaf_encryption by_secret by_public_key] in Hm |- *; try contradiction.
  - left. split; [reflexivity|]. destruct Hm as (k & _ & ->). rewrite secret_nonce_spec. apply aead_easy_with.
  - left. split; [reflexivity|]. destruct Hm as (k' & _ & ->). rewrite secret_nonce_spec. apply aead_easy_with.
  - right. split; [reflexivity|]. unfold box_encrypt_easy in Hm. destruct (cs_beforenm _ _ _) as [kk|]; [|discriminate].
    rewrite box_nonce_spec in Hm. destruct (cs_box_seal (co_cs cod) m (box_nonce_of_recipient i) kk) as [x y] eqn:E.
    injection Hm as <-. exists kk, m, x, y. auto.
Qed.

Lemma data_ciphertexts m i : crypto_ok (co_cs cod) -> co_encrypting cod = true -> 1 <= c -> (lenN m < two64)%N ->
  i < length (enc_chunks cod c m) ->
  (N.of_nat i < two64)%N /\ encrypted_with (co_cs cod) (nonce_of_chunk i) (nth i (enc_chunks cod c m) []).
Proof.
  intros Hok He Hc Hm Hi. rewrite enc_chunks_length in Hi by assumption.
  assert (Hi64 : (N.of_nat i < two64)%N) by (eapply (count64 c); eassumption).
  split; [assumption|]. destruct (enc_chunks_nth cod Hok He c Hc m i Hi) as (H & _).
  unfold convert_chunk in H. rewrite He in H. rewrite chunk_nonce_spec in H by assumption.
  destruct (cs_aead_encrypt _ _ _ _ _) as [x y] eqn:E. injection H as <-. repeat eexists. exact E.
Qed.
End Honest.

(** Proofs about the contract of the crypto library: rypt never leaves it. *)
From Coq.Strings Require Import Byte String.
From Coq Require Import List Arith NArith Lia Bool.
From Verif Require Import Base BaseFacts Errors Shamir SplitProofs Io HeaderIo HeaderIoProofs Crypto Proto HeaderCrypto HeaderCryptoProofs.
From Verif Require Import CredSpec StreamCrypto Pipeline PipelineSpec PipelineProofs4 PipelineProofs3 StreamProofs FileCrypto.
From Verif Require Import WireSpec WireProofs LibSodium ContractSpec.
Import ListNotations.

(** ** Header *)

Definition small (b : bytes) : Prop := (lenN b <= 16777216)%N.

Definition enc_sub cs epk esk (sub : N * cred) (st : list bytes * (N * rng)) :=
  let '(num_shares, credential) := sub in
  let '(key_parts, (key_idx, r)) := st in
  let* (key_part, key_parts) := split_at num_shares key_parts in
  let* (key_data, (key_idx, r)) := encrypt_key_data cs epk esk credential (concat key_part) key_idx r in
  Ok ((one_to_zero num_shares, key_data), (key_parts, (key_idx, r))).

Lemma enc_complex cs epk esk subs n t key idx r :
  encrypt_key_data cs epk esk (Complex subs n t) key idx r =
  let* (key_parts, r) := split_key_into_key_parts key n t r in
  let* (encrypted_key_parts, (_, (key_idx, r))) := smap (enc_sub cs epk esk) subs (key_parts, (idx, r)) in
  Ok (KComp (one_to_zero t) encrypted_key_parts, (key_idx, r)).
Proof. reflexivity. Qed.

Section Same.
Variables cs cs' : cryptosys.
Hypothesis Hok : crypto_ok cs.
Hypothesis Hc : contract cs'.
Hypothesis Hs : same_within cs cs'.

Lemma hmac_same m k : length k = 32 -> cs_hmac cs m k = cs_hmac cs' m k. Proof. apply (s_hmac _ _ Hs). Qed.

Lemma secret_key_same epk c : sized c -> recipient_secret_key cs epk c = recipient_secret_key cs' epk c.
Proof.
  destruct c as [p|k|k|k|subs n t]; cbn [recipient_secret_key sized]; intros H; try reflexivity.
  - rewrite <- (s_hmac _ _ Hs) by reflexivity. rewrite (s_kdf _ _ Hs); [reflexivity|]. split; [exact H|].
    rewrite firstn_length, (hmac_len _ Hok). reflexivity.
  - now rewrite (s_hmac _ _ Hs) by reflexivity.
Qed.

Lemma secret_key_len epk c k : recipient_secret_key cs epk c = Ok k -> length k = 32.
Proof.
  destruct c; cbn; intros H; try discriminate; injection H as <-; [apply (kdf_len _ Hok)|apply (hmac_len _ Hok)].
Qed.

Lemma secret_nonce_len i : length (recipient_secret_nonce i) = 12.
Proof. unfold recipient_secret_nonce. rewrite app_length, le_bytes_length. reflexivity. Qed.
Lemma box_nonce_len i : length (recipient_box_nonce i) = 24.
Proof. unfold recipient_box_nonce. rewrite app_length, le_bytes_length. reflexivity. Qed.

Lemma small_limit b : small b -> (lenN b <= message_limit)%N.
Proof. unfold small, message_limit. lia. Qed.

Lemma small_firstn b n : small b -> small (firstn n b).
Proof. unfold small, lenN. rewrite firstn_length. lia. Qed.

Lemma aead_enc_same m k n : small m -> length k = 32 -> length n = 12 ->
  aead_encrypt_easy cs m k n = aead_encrypt_easy cs' m k n.
Proof.
  intros H1 H2 H3. unfold aead_encrypt_easy. rewrite (s_encrypt _ _ Hs); [reflexivity|].
  repeat split; auto using small_limit.
Qed.

Lemma aead_dec_same m k n : small m -> length k = 32 -> length n = 12 ->
  aead_decrypt_easy cs m k n = aead_decrypt_easy cs' m k n.
Proof.
  intros H1 H2 H3. unfold aead_decrypt_easy, AEAD_MAC_LEN. destruct (Nat.ltb_spec (length m) 16); [reflexivity|].
  apply (s_decrypt _ _ Hs); [|rewrite skipn_length; lia].
  repeat split; auto. apply small_limit. now apply small_firstn.
Qed.

Lemma agreed_same pk sk : length pk = 32 -> length sk = 64 ->
  cs_beforenm cs pk sk = cs_beforenm cs' pk sk /\ (forall k, cs_beforenm cs pk sk = Some k -> length k = 32).
Proof.
  intros H1 H2. rewrite (s_beforenm _ _ Hs) by auto. split; [reflexivity|]. intros k. now apply (c_agreed_len _ Hc).
Qed.

Lemma box_enc_same m pk sk n : small m -> length pk = 32 -> length sk = 64 -> length n = 24 ->
  box_encrypt_easy cs m pk sk n = box_encrypt_easy cs' m pk sk n.
Proof.
  intros H1 H2 H3 H4. unfold box_encrypt_easy. destruct (agreed_same pk sk H2 H3) as [<- HL].
  destruct (cs_beforenm cs pk sk) as [k|]; [|reflexivity]. rewrite (s_seal _ _ Hs); [reflexivity|].
  repeat split; auto using small_limit.
Qed.

Lemma box_dec_same m pk sk n : small m -> length pk = 32 -> length sk = 64 -> length n = 24 ->
  box_decrypt_easy cs m pk sk n = box_decrypt_easy cs' m pk sk n.
Proof.
  intros H1 H2 H3 H4. unfold box_decrypt_easy, BOX_MAC_LEN. destruct (Nat.ltb_spec (length m) 16); [reflexivity|].
  destruct (agreed_same pk sk H2 H3) as [<- HL].
  destruct (cs_beforenm cs pk sk) as [k|]; [|reflexivity]. rewrite (s_open _ _ Hs); [reflexivity| |rewrite skipn_length; lia].
  repeat split; auto. apply small_limit. now apply small_firstn.
Qed.

Lemma smap_same {A B S E} (f g : A -> S -> outcome E (B * S)) (I : S -> Prop) (l : list A) :
  (forall a s, In a l -> I s -> f a s = g a s /\ (forall b s', f a s = Ok (b, s') -> I s')) ->
  forall s, I s -> smap f l s = smap g l s.
Proof.
  induction l as [|a l IH]; intros H s Hi; [reflexivity|].
  change (smap f (a :: l) s) with (let* (b, s) := f a s in let* (bs, s) := smap f l s in Ok (b :: bs, s)).
  change (smap g (a :: l) s) with (let* (b, s) := g a s in let* (bs, s) := smap g l s in Ok (b :: bs, s)).
  destruct (H a s) as [<- HI]; [now left|exact Hi|]. destruct (f a s) as [[b s1]| |]; try reflexivity. cbn [bind].
  rewrite IH; [reflexivity| |eapply HI; reflexivity]. intros a' s' Ha. apply H. now right.
Qed.

Lemma concat_len_const (l : list bytes) n : Forall (fun s => length s = n) l -> length (concat l) = length l * n.
Proof. induction 1 as [|a l Ha _ IH]; [reflexivity|]. cbn. rewrite app_length, Ha, IH. lia. Qed.

Lemma split_small key n t r parts r' : small key ->
  split_key_into_key_parts key n t r = Ok (parts, r') -> small (concat parts).
Proof.
  intros HS H. destruct (split_ok_parts _ _ _ _ _ _ H) as ((H1 & H2 & H3) & H4 & H5).
  unfold small, lenN in *. rewrite (concat_len_const _ _ H4).
  unfold split_key_into_key_parts in H.
  destruct (N.eqb_spec t 0); cbn [negb ensure bind] in H; [discriminate|].
  destruct (N.leb_spec t n); cbn [ensure bind] in H; [|discriminate].
  destruct (N.ltb_spec (wrap64 (lenN key * n)) MAX_HEADER_LEN) as [HW|]; cbn [ensure bind] in H; [|discriminate].
  unfold MAX_HEADER_LEN, wrap64 in HW.
  assert (HB : (lenN key * n < two64)%N).
  { destruct (N.eqb_spec t 1); [|destruct (N.eqb_spec t n)].
    - destruct (N.ltb_spec (lenN key * n) two64); [auto|discriminate].
    - destruct (N.ltb_spec (lenN key * n) two64); [auto|discriminate].
    - specialize (H5 n1 n2). unfold two64, lenN. nia. }
  rewrite N.mod_small in HW by exact HB. unfold lenN in HW. nia.
Qed.

Lemma sized_subs subs n t : sized (Complex subs n t) -> Forall (fun p => sized (snd p)) subs.
Proof. cbn. induction subs as [|p l IH]; cbn; [constructor|]. intros [H1 H2]. constructor; auto. Qed.

Lemma small_parts (l : list bytes) n : small (concat l) -> small (concat (firstn n l)) /\ small (concat (skipn n l)).
Proof.
  unfold small, lenN. rewrite <- (firstn_skipn n l) at 1. rewrite concat_app, app_length. lia.
Qed.

Lemma encrypt_same epk esk c : length esk = 64 -> sized c -> forall kp idx r, small kp ->
  encrypt_key_data cs epk esk c kp idx r = encrypt_key_data cs' epk esk c kp idx r.
Proof.
  intros He. induction c as [p|k|k|k|subs n t IH] using cred_ind'; intros HS kp idx r HK.
  - cbn [encrypt_key_data]. rewrite <- secret_key_same by exact HS.
    destruct (recipient_secret_key cs epk (Password p)) as [k| |] eqn:E; try reflexivity. cbn [bind].
    rewrite aead_enc_same; eauto using secret_nonce_len, secret_key_len.
  - cbn [encrypt_key_data]. rewrite <- secret_key_same by exact HS.
    destruct (recipient_secret_key cs epk (SymmetricKey k)) as [k'| |] eqn:E; try reflexivity. cbn [bind].
    rewrite aead_enc_same; eauto using secret_nonce_len, secret_key_len.
  - cbn [encrypt_key_data]. rewrite box_enc_same; auto using box_nonce_len.
  - reflexivity.
  - rewrite !enc_complex. destruct (split_key_into_key_parts kp n t r) as [[parts r1]| |] eqn:E; try reflexivity. cbn [bind].
    apply sized_subs in HS. pose proof (split_small _ _ _ _ _ _ HK E) as HP.
    assert (smap (enc_sub cs epk esk) subs (parts, (idx, r1)) = smap (enc_sub cs' epk esk) subs (parts, (idx, r1))) as ->; [|reflexivity].
    apply smap_same with (I := fun st => small (concat (fst st))); [|exact HP].
    intros [m c] [ps [i r2]] Hin HI. cbn [fst] in HI. unfold enc_sub. unfold split_at.
    destruct (m <=? lenN ps)%N; [|split; [reflexivity|discriminate]]. cbn [bind].
    destruct (small_parts ps (N.to_nat m) HI) as [Hf Hr].
    pose proof (proj1 (Forall_forall _ _) IH _ Hin (proj1 (Forall_forall _ _) HS _ Hin) (concat (firstn (N.to_nat m) ps)) i r2 Hf) as HE.
    cbn [snd] in HE. rewrite <- HE. split; [reflexivity|].
    intros b s'. destruct (encrypt_key_data cs epk esk c _ i r2) as [[d [i' r']]| |]; cbn [bind]; try discriminate.
    intros [= <- <-]. exact Hr.
Qed.

Inductive same_decryptor : outcome err decryptor -> outcome err decryptor -> Prop :=
| SD_ok d d' : (forall e i, small e -> d e i = d' e i) -> same_decryptor (Ok d) (Ok d')
| SD_err e : same_decryptor (Err e) (Err e)
| SD_panic : same_decryptor Panic Panic.

Lemma decryptor_same epk c : length epk = 32 -> sized c ->
  same_decryptor (decryptor_from_credential cs epk c) (decryptor_from_credential cs' epk c).
Proof.
  intros He HS. destruct c as [p|k|k|k|subs n t]; cbn [decryptor_from_credential].
  - rewrite <- secret_key_same by exact HS. destruct (recipient_secret_key cs epk (Password p)) as [k| |] eqn:E; cbn [bind]; constructor.
    intros e i H. f_equal. apply aead_dec_same; eauto using secret_key_len, secret_nonce_len.
  - rewrite <- secret_key_same by exact HS. destruct (recipient_secret_key cs epk (SymmetricKey k)) as [k'| |] eqn:E; cbn [bind]; constructor.
    intros e i H. f_equal. apply aead_dec_same; eauto using secret_key_len, secret_nonce_len.
  - constructor.
  - constructor. intros e i H. rewrite box_dec_same; auto using box_nonce_len.
  - constructor.
Qed.

Inductive same_decryptors : outcome err (list decryptor) -> outcome err (list decryptor) -> Prop :=
| SDs_ok ds ds' : Forall2 (fun d d' => forall e i, small e -> d e i = d' e i) ds ds' -> same_decryptors (Ok ds) (Ok ds')
| SDs_err e : same_decryptors (Err e) (Err e)
| SDs_panic : same_decryptors Panic Panic.

Lemma decryptors_same epk D : length epk = 32 -> Forall sized D ->
  same_decryptors (map_out (decryptor_from_credential cs epk) D) (map_out (decryptor_from_credential cs' epk) D).
Proof.
  intros He. induction 1 as [|c D HS _ IH]; cbn [map_out]; [constructor; constructor|].
  destruct (decryptor_same epk c He HS); cbn [bind]; [|constructor..].
  destruct IH; cbn [bind]; constructor. now constructor.
Qed.

Lemma try_same ds ds' e i : Forall2 (fun d d' : decryptor => forall e i, small e -> d e i = d' e i) ds ds' -> small e ->
  try_decryptors ds e i = try_decryptors ds' e i.
Proof.
  intros H He. induction H as [|d d' ds ds' Hd _ IH]; [reflexivity|]. cbn. rewrite <- Hd by auto.
  destruct (d e i) as [[k|]| |]; cbn; auto.
Qed.
End Same.

Section KdataInd.
  Variable P : kdata -> Prop.
  Hypothesis H1 : P KNone.
  Hypothesis H2 : forall b, P (KEnc b).
  Hypothesis H3 : forall t l, Forall (fun p => P (snd p)) l -> P (KComp t l).
  Fixpoint kdata_ind2 (d : kdata) : P d :=
    match d with
    | KNone => H1
    | KEnc b => H2 b
    | KComp t l =>
        H3 t l ((fix go (l : list (N * kdata)) : Forall (fun p => P (snd p)) l :=
                   match l with
                   | [] => Forall_nil _
                   | p :: l => Forall_cons p (kdata_ind2 (snd p)) (go l)
                   end) l)
    end.
End KdataInd.

Lemma decrypt_same ds ds' d :
  Forall2 (fun d d' : decryptor => forall e i, small e -> d e i = d' e i) ds ds' ->
  Forall small (encrypted_keys d) -> forall i, decrypt_key_data ds d i = decrypt_key_data ds' d i.
Proof.
  intros HD. induction d as [|b|t l IH] using kdata_ind2; intros HS i.
  - reflexivity.
  - cbn [decrypt_key_data]. cbn [encrypted_keys] in HS. apply Forall_inv in HS. rewrite (try_same ds ds'); auto.
  - rewrite !decrypt_comp.
    assert (smap (sub_dec ds) l (i, 0%N) = smap (sub_dec ds') l (i, 0%N)) as ->; [|reflexivity].
    apply smap_same with (I := fun _ => True); [|exact I].
    intros [m d] [j pos] Hin _. split; [|auto]. unfold sub_dec.
    pose proof (proj1 (Forall_forall _ _) IH _ Hin) as HE. cbn [snd] in HE. rewrite HE; [reflexivity|].
    apply Forall_forall. intros x Hx. cbn [encrypted_keys] in HS. rewrite Forall_forall in HS. apply HS.
    apply in_concat. exists (encrypted_keys d). split; [|exact Hx]. apply in_map_iff. now exists (m, d).
Qed.

(** *** Everything in a header is shorter than the header *)

Scheme ckey_means_ind2 := Minimality for ckey_means Sort Prop
with parts_mean_ind2 := Minimality for parts_mean Sort Prop
with kparts_mean_ind2 := Minimality for kparts_mean Sort Prop
with kdata_means_ind2 := Minimality for kdata_means Sort Prop.
Combined Scheme means_ind2 from ckey_means_ind2, parts_mean_ind2, kparts_mean_ind2, kdata_means_ind2.

Definition fields_below (n : nat) (fs : list (N * wire)) : Prop := forall t b, In (t, WLen b) fs -> length b <= n.

Lemma message_below fs b n : is_message fs b -> length b <= n -> fields_below n fs.
Proof.
  intros H Hn t x Hx. assert (length x < length b); [|lia].
  apply (bodies_shorter t fs b x H). unfold bodies. apply in_flat_map. exists (t, WLen x). split; [exact Hx|].
  rewrite N.eqb_refl. now left.
Qed.

Lemma bodies_in t fs x : In x (bodies t fs) <-> In (t, WLen x) fs.
Proof.
  unfold bodies. rewrite in_flat_map. split.
  - intros ([t' w] & H1 & H2). destruct w; try easy. destruct (N.eqb_spec t' t) as [->|]; [|easy]. now destruct H2 as [->|[]].
  - intros H. exists (t, WLen x). rewrite N.eqb_refl. split; [auto|now left].
Qed.

Definition kd_below (n : nat) (d : kdata) : Prop := Forall (fun b => length b <= n) (encrypted_keys d).

Lemma parts_below n t l : Forall (fun p => kd_below n (snd p)) l -> kd_below n (KComp t l).
Proof.
  intros H. unfold kd_below. cbn [encrypted_keys]. apply Forall_concat. apply Forall_map. exact H.
Qed.

Lemma means_below n :
  (forall fs k, ckey_means fs k -> fields_below n fs -> Forall (fun p => kd_below n (snd p)) (snd k)) /\
  (forall bs ps, parts_mean bs ps -> Forall (fun b => length b <= n) bs -> Forall (fun p => kd_below n (snd p)) ps) /\
  (forall fs p, kparts_mean fs p -> fields_below n fs -> kd_below n (snd p)) /\
  (forall fs d d', kdata_means fs d d' -> fields_below n fs -> kd_below n d -> kd_below n d').
Proof.
  apply means_ind2.
  - intros fs parts _ _ _ IH H. cbn [snd]. apply IH. apply Forall_forall. intros x Hx. apply bodies_in in Hx. eapply H. exact Hx.
  - constructor.
  - intros b gs p bs ps Hm _ IH1 _ IH2 H. inversion H; subst. constructor; auto. apply IH1. eapply message_below; eauto.
  - intros fs d _ _ IH H. cbn [snd]. apply IH; auto. constructor.
  - auto.
  - intros b fs d d' _ IH H HD. apply IH.
    + intros t x Hx. eapply H. right. exact Hx.
    + constructor; [|constructor]. eapply H. left. reflexivity.
  - intros b gs t parts fs d d' Hm _ IH1 _ IH2 H HD. apply IH2.
    + intros t' x Hx. eapply H. right. exact Hx.
    + apply parts_below. cbn [snd] in IH1. apply IH1. eapply message_below; [exact Hm|]. eapply H. left. reflexivity.
  - intros tag w fs d d' _ _ _ IH H HD. apply IH; auto. intros t x Hx. eapply H. right. exact Hx.
Qed.

Lemma header_below b h : decode_header b = Some h ->
  length (hd_protected h) <= length b /\
  (forall t l, hd_payload_key h = Some (t, l) -> kd_below (length b) (KComp t l)).
Proof.
  intros H. apply header_decodes in H as (fs & Hm & (_ & _ & _ & _ & _ & _ & (gss & HG & Hk) & Hp)). split.
  - rewrite Hp. assert (HF : Forall (fun x => length x <= length b) (bodies 8 fs)).
    { apply Forall_forall. intros x Hx. pose proof (bodies_shorter _ _ _ _ Hm Hx). lia. }
    clear Hp. induction HF as [|x l Hx HF IH]; [cbn; lia|]. cbn. destruct l; auto.
  - intros t l E. destruct gss as [|gs gss']; [congruence|]. destruct Hk as (k & HK & E2). rewrite E in E2. injection E2 as <-.
    apply parts_below. apply (proj1 (means_below (length b))) in HK; [exact HK|].
    intros t' x Hx. apply in_concat in Hx as (g & Hg & Hx).
    destruct (in_split _ _ Hg) as (g1 & g2 & Eg). rewrite Eg in HG.
    apply Forall2_app_inv_l in HG as (b1 & b2 & _ & HG & Eb). inversion HG as [|? y ? ? Hy _]; subst.
    assert (In y (bodies 7 fs)) as Hin by (rewrite Eb; apply in_app_iff; right; now left).
    pose proof (bodies_shorter _ _ _ _ Hm Hin).
    pose proof (message_below _ _ (length b) Hy ltac:(lia) _ _ Hx). lia.
Qed.

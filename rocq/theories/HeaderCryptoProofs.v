(** Proofs about building and opening the file header. *)
From Coq Require Import List NArith Bool Lia PeanoNat.
From Coq.Strings Require Import Byte.
From Verif Require Import Base BaseFacts Shamir Errors HeaderIo Crypto Proto ProtoSpec ProtoProofs HeaderCrypto SplitProofs CredSpec.
Import ListNotations.

(** ** Generalities *)

Section CredInd.
  Variable P : cred -> Prop.
  Hypothesis H1 : forall p, P (Password p).
  Hypothesis H2 : forall p, P (SymmetricKey p).
  Hypothesis H3 : forall p, P (PublicKey p).
  Hypothesis H4 : forall p, P (PrivateKey p).
  Hypothesis H5 : forall subs n t, Forall (fun p => P (snd p)) subs -> P (Complex subs n t).
  Fixpoint cred_ind' (c : cred) : P c :=
    match c with
    | Password p => H1 p
    | SymmetricKey p => H2 p
    | PublicKey p => H3 p
    | PrivateKey p => H4 p
    | Complex subs n t =>
        H5 subs n t
           ((fix go (l : list (N * cred)) : Forall (fun p => P (snd p)) l :=
               match l with
               | [] => Forall_nil _
               | p :: l => Forall_cons p (cred_ind' (snd p)) (go l)
               end) subs)
    end.
End CredInd.

Lemma le_bytes_wrap k n : le_bytes k (n mod 256 ^ N.of_nat k)%N = le_bytes k n.
Proof.
  rewrite <- (le_bytes_length k n) at 1. rewrite <- le_value_le_bytes. apply le_bytes_le_value.
Qed.

Lemma secret_nonce_wrap i : recipient_secret_nonce (wrap32 i) = recipient_secret_nonce i.
Proof. unfold recipient_secret_nonce. f_equal. apply (le_bytes_wrap 4). Qed.

Lemma box_nonce_wrap i : recipient_box_nonce (wrap32 i) = recipient_box_nonce i.
Proof. unfold recipient_box_nonce. f_equal. apply (le_bytes_wrap 4). Qed.

Lemma smap_cons {A B S E} (f : A -> S -> outcome E (B * S)) a l s r :
  smap f (a :: l) s = Ok r <->
  exists b s1 bs s2, f a s = Ok (b, s1) /\ smap f l s1 = Ok (bs, s2) /\ r = (b :: bs, s2).
Proof.
  change (smap f (a :: l) s) with (let* (b, s) := f a s in let* (bs, s) := smap f l s in Ok (b :: bs, s)).
  split.
  - intros H. apply bind_ok in H as ([b s1] & Hf & H). apply bind_ok in H as ([bs s2] & Hl & H).
    injection H as <-. exists b, s1, bs, s2. auto.
  - intros (b & s1 & bs & s2 & Hf & Hl & ->). rewrite Hf. cbn [bind]. rewrite Hl. reflexivity.
Qed.

Lemma lenN_app {A} (l k : list A) : lenN (l ++ k) = (lenN l + lenN k)%N.
Proof. unfold lenN. rewrite app_length. lia. Qed.

Lemma lenN_cons {A} (a : A) (l : list A) : lenN (a :: l) = (lenN l + 1)%N.
Proof. unfold lenN. simpl. lia. Qed.

Lemma wrap32_add a b : wrap32 (wrap32 a + b) = wrap32 (a + b).
Proof. unfold wrap32. rewrite N.add_mod_idemp_l by discriminate. reflexivity. Qed.

Lemma split_at_ok {E A} n (l a b : list A) :
  @split_at E A n l = Ok (a, b) -> l = a ++ b /\ lenN a = n.
Proof.
  unfold split_at. destruct (N.leb_spec n (lenN l)); [|discriminate]. intros E0. injection E0 as <- <-.
  rewrite firstn_skipn. split; auto. unfold lenN in *. rewrite firstn_length. lia.
Qed.

Lemma concat_length {A} (L : nat) (l : list (list A)) :
  Forall (fun s => length s = L) l -> length (concat l) = length l * L.
Proof. induction 1; simpl; auto. rewrite app_length. lia. Qed.

Lemma chunks_exact_concat L l : Forall (fun s => length s = L) l ->
  chunks_exact (length l) L (concat l) = l.
Proof.
  induction 1 as [|s l H HF IH]; simpl; auto.
  rewrite <- H at 1 3. rewrite firstn_app_exact, skipn_app_exact, IH. reflexivity.
Qed.

(** ** Satisfaction *)

Section Sat.
Variable cs : cryptosys.
Variable D : list cred.

(** Shares held by [D] among the members of a group. *)
Inductive held : list (N * cred) -> N -> Prop :=
| held_nil : held [] 0
| held_yes k c l w : sat cs D c -> held l w -> held ((k, c) :: l) (k + w)
| held_no k c l w : ~ sat cs D c -> held l w -> held ((k, c) :: l) w.

Lemma held_select l w : held l w ->
  exists sel, selection sel l /\ Forall (fun p => sat cs D (snd p)) sel /\ total_shares sel = w.
Proof.
  induction 1 as [|k c l w Hs Hh (sel & A & B & C)|k c l w Hs Hh (sel & A & B & C)].
  - exists []. repeat constructor.
  - exists ((k, c) :: sel). simpl. repeat split; [now constructor|now constructor|lia].
  - exists sel. repeat split; auto. now constructor.
Qed.

Lemma held_max l w sel : held l w -> selection sel l -> Forall (fun p => sat cs D (snd p)) sel ->
  (total_shares sel <= w)%N.
Proof.
  intros H. revert sel. induction H as [|k c l w Hs Hh IH|k c l w Hs Hh IH]; intros sel HS HF.
  - inversion HS; subst. simpl. lia.
  - inversion HS as [|? ? ? HS'|? ? ? HS']; subst; simpl.
    + inversion HF as [|? ? F1 F2]; subst. specialize (IH _ HS' F2). lia.
    + specialize (IH _ HS' HF). lia.
  - inversion HS as [|? ? ? HS'|? ? ? HS']; subst; simpl.
    + inversion HF; subst. contradiction.
    + apply IH; auto.
Qed.

Lemma sat_group_iff subs n t w : held subs w -> (sat cs D (Complex subs n t) <-> (t <= w)%N).
Proof.
  intros Hh. split; intros H.
  - inversion H as [? d ? M|? ? ? sel HS HF HT]; subst; [destruct d; contradiction|].
    pose proof (held_max _ _ _ Hh HS HF). lia.
  - destruct (held_select _ _ Hh) as (sel & A & B & C). apply (sat_group cs D subs n t sel); auto. lia.
Qed.

Lemma sat_leaf_iff c : (forall subs n t, c <> Complex subs n t) ->
  (sat cs D c <-> exists d, In d D /\ matches cs c d).
Proof.
  intros HN. split.
  - intros H. inversion H; subst; eauto. exfalso. eapply HN; reflexivity.
  - intros (d & ? & ?). eapply sat_leaf; eauto.
Qed.
End Sat.

(** ** One encrypted key *)

Section Leaf.
Variable cs : cryptosys.
Hypothesis ok : crypto_ok cs.
Variable seed : bytes.
Let epk := fst (cs_keypair cs seed).
Let esk := snd (cs_keypair cs seed).

Lemma aead_easy_length m k n : length (aead_encrypt_easy cs m k n) = length m + 16.
Proof.
  unfold aead_encrypt_easy. pose proof (aead_len _ ok m [] k n). pose proof (aead_mac_len _ ok m [] k n).
  destruct (cs_aead_encrypt cs m [] k n); simpl in *. rewrite app_length. unfold AEAD_MAC_LEN in *. lia.
Qed.

Lemma aead_easy_inv m k n : aead_decrypt_easy cs (aead_encrypt_easy cs m k n) k n = Some m.
Proof.
  unfold aead_decrypt_easy. rewrite aead_easy_length.
  destruct (Nat.ltb_spec (length m + 16) AEAD_MAC_LEN); [unfold AEAD_MAC_LEN in *; lia|].
  unfold aead_encrypt_easy. pose proof (aead_len _ ok m [] k n). pose proof (aead_mac_len _ ok m [] k n).
  pose proof (aead_inv _ ok m [] k n).
  destruct (cs_aead_encrypt cs m [] k n) as [c t]; simpl in *.
  replace (length m + 16 - AEAD_MAC_LEN) with (length c) by (unfold AEAD_MAC_LEN in *; lia).
  rewrite firstn_app_exact, skipn_app_exact. assumption.
Qed.

Lemma box_easy_length m pk sk n ct : box_encrypt_easy cs m pk sk n = Some ct -> length ct = length m + 16.
Proof.
  unfold box_encrypt_easy. destruct (cs_beforenm cs pk sk) as [k|]; [|discriminate].
  pose proof (box_len _ ok m n k). pose proof (box_mac_len _ ok m n k).
  destruct (cs_box_seal cs m n k); simpl in *. intros E. injection E as <-.
  rewrite app_length. unfold BOX_MAC_LEN in *. lia.
Qed.

Lemma box_easy_inv m pk sk pk' sk' n ct k :
  cs_beforenm cs pk sk = Some k -> cs_beforenm cs pk' sk' = Some k ->
  box_encrypt_easy cs m pk sk n = Some ct -> box_decrypt_easy cs ct pk' sk' n = Ok m.
Proof.
  intros K1 K2 H. pose proof (box_easy_length _ _ _ _ _ H) as HL.
  unfold box_decrypt_easy. destruct (Nat.ltb_spec (length ct) BOX_MAC_LEN); [unfold BOX_MAC_LEN in *; lia|].
  unfold box_encrypt_easy in H. rewrite K1 in H. rewrite K2.
  pose proof (box_len _ ok m n k). pose proof (box_mac_len _ ok m n k). pose proof (box_inv _ ok m n k) as HI.
  destruct (cs_box_seal cs m n k) as [c t]; simpl in *. injection H as <-.
  replace (length (c ++ t) - BOX_MAC_LEN) with (length c)
    by (rewrite app_length in *; unfold BOX_MAC_LEN in *; lia).
  rewrite firstn_app_exact, skipn_app_exact, HI. reflexivity.
Qed.

(** A decryption credential that cannot fail hard. *)
Definition usable (d : cred) : Prop :=
  match d with
  | Password _ | SymmetricKey _ => True
  | PrivateKey sk => cs_beforenm cs epk sk <> None
  | PublicKey _ | Complex _ _ _ => False
  end.

Lemma decryption_cred_usable d : decryption_cred cs d -> usable d.
Proof.
  destruct d; simpl; auto. intros (s & <-). unfold epk.
  destruct (agree _ ok seed s) as (x & -> & _). discriminate.
Qed.

Lemma usable_decryptor d : usable d -> exists f, decryptor_from_credential cs epk d = Ok f /\
  forall ct i, exists o, f ct i = Ok o.
Proof.
  destruct d; simpl; try contradiction.
  - intros _. eexists. split; [reflexivity|]. eauto.
  - intros _. eexists. split; [reflexivity|]. eauto.
  - intros H. eexists. split; [reflexivity|]. intros ct i. simpl. unfold box_decrypt_easy.
    destruct (Nat.ltb _ _); [eauto|]. destruct (cs_beforenm cs epk k) as [x|]; [|congruence].
    destruct (cs_box_open _ _ _ _ _); eauto.
Qed.

(** What an encryption of [m] for leaf [c] at index [i] is. *)
Definition leaf_encryption (c : cred) (m : bytes) (i : N) (ct : bytes) : Prop :=
  match c with
  | Password _ | SymmetricKey _ =>
      exists k, recipient_secret_key cs epk c = Ok k /\ ct = aead_encrypt_easy cs m k (recipient_secret_nonce i)
  | PublicKey pk => box_encrypt_easy cs m pk esk (recipient_box_nonce i) = Some ct
  | _ => False
  end.

Lemma leaf_encryption_length c m i ct : leaf_encryption c m i ct -> length ct = length m + 16.
Proof.
  destruct c; simpl; try contradiction.
  - intros (x & _ & ->). apply aead_easy_length.
  - intros (x & _ & ->). apply aead_easy_length.
  - apply box_easy_length.
Qed.

Lemma leaf_opened c m i ct d f :
  leaf_encryption c m i ct -> matches cs c d -> decryptor_from_credential cs epk d = Ok f ->
  f ct i = Ok (Some m).
Proof.
  intros HE HM HF.
  destruct c, d; simpl in HM; try contradiction; subst.
  - simpl in *. destruct HE as (x & E & ->). injection E as <-. injection HF as <-.
    now rewrite aead_easy_inv.
  - simpl in *. destruct HE as (x & E & ->). injection E as <-. injection HF as <-.
    now rewrite aead_easy_inv.
  - destruct HM as (s & Hs). simpl in *. injection HF as <-.
    destruct (agree _ ok seed s) as (x & A & B). rewrite Hs in A, B. simpl in A, B.
    fold epk in A. fold esk in B.
    rewrite (box_easy_inv m k esk epk k0 (recipient_box_nonce i) ct x B A HE). reflexivity.
Qed.

Lemma try_decryptors_leaf D ds c m i ct :
  Forall usable D -> map_out (decryptor_from_credential cs epk) D = Ok ds ->
  leaf_encryption c m i ct ->
  (forall d, In d D -> opens cs epk d ct i -> matches cs c d) ->
  (try_decryptors ds ct i = Ok (Some m) /\ exists d, In d D /\ matches cs c d) \/
  (try_decryptors ds ct i = Ok None /\ ~ exists d, In d D /\ matches cs c d).
Proof.
  intros HU HD HL HN. apply map_out_ok in HD. induction HD as [|d f D ds Hf HD IH]; simpl.
  - right. split; auto. intros (d & [] & _).
  - inversion HU as [|? ? U1 U2]; subst.
    destruct (usable_decryptor d U1) as (f' & Hf' & Htot). rewrite Hf in Hf'. injection Hf' as <-.
    destruct (Htot ct i) as ([k|] & Ho).
    + left. assert (M : matches cs c d).
      { apply HN; [now left|]. exists f, k. auto. }
      rewrite (leaf_opened _ _ _ _ _ _ HL M Hf). cbn [bind]. split; auto. exists d. split; simpl; auto.
    + rewrite Ho. cbn [bind].
      destruct IH as [(A & d' & B & C)|(A & B)]; auto.
      { intros d' Hin. apply HN. now right. }
      * left. split; auto. exists d'. split; simpl; auto.
      * right. split; auto. intros (d' & [<-|Hin] & M).
        -- pose proof (leaf_opened _ _ _ _ _ _ HL M Hf). congruence.
        -- apply B. eauto.
Qed.

(** ** Whole key trees *)

Definition noacc (D : list cred) (rs : list cred) (cts : list bytes) (idx : N) : Prop :=
  forall i c ct d, nth_error rs i = Some c -> nth_error cts i = Some ct -> In d D ->
    opens cs epk d ct (wrap32 (idx + N.of_nat i)) -> matches cs c d.

Lemma noacc_app D r1 r2 c1 c2 idx : length c1 = length r1 ->
  noacc D (r1 ++ r2) (c1 ++ c2) idx ->
  noacc D r1 c1 idx /\ noacc D r2 c2 (wrap32 (idx + lenN r1)).
Proof.
  intros HL H. split; intros i c ct d A B C E.
  - apply (H i c ct d); auto.
    + rewrite nth_error_app1; auto. apply nth_error_Some. congruence.
    + rewrite nth_error_app1; auto. apply nth_error_Some. congruence.
  - apply (H (length r1 + i) c ct d); auto.
    + rewrite nth_error_app2 by lia. now replace (length r1 + i - length r1) with i by lia.
    + rewrite nth_error_app2 by lia. now replace (length r1 + i - length c1) with i by lia.
    + rewrite wrap32_add in E. unfold lenN in E. rewrite Nat2N.inj_add, N.add_assoc. exact E.
Qed.

Lemma wrap64_small n : (n < two64)%N -> wrap64 n = n.
Proof. apply N.mod_small. Qed.

Lemma wrap32_small n : (n < two32)%N -> wrap32 n = n.
Proof. apply N.mod_small. Qed.

Definition sub_enc (sub : N * cred) (st : list bytes * (N * rng)) :=
  let '(num_shares, credential) := sub in
  let '(key_parts, (key_idx, r)) := st in
  let* (key_part, key_parts) := split_at num_shares key_parts in
  let* (key_data, (key_idx, r)) := encrypt_key_data cs epk esk credential (concat key_part) key_idx r in
  Ok ((one_to_zero num_shares, key_data), (key_parts, (key_idx, r))).

Definition sub_dec (ds : list decryptor) (part : N * kdata) (st : N * N) :=
  let '(num, key_data) := part in
  let '(key_idx, key_part_idx) := st in
  let* (keydata_opt, key_idx) := decrypt_key_data ds key_data key_idx in
  let num_key_parts := N.max num 1 in
  let* l := distribute_key_data keydata_opt num_key_parts key_part_idx in
  Ok (l, (key_idx, wrap64 (key_part_idx + num_key_parts))).

Lemma encrypt_complex subs n t key idx r :
  encrypt_key_data cs epk esk (Complex subs n t) key idx r =
  let* (key_parts, r) := split_key_into_key_parts key n t r in
  let* (encrypted_key_parts, (_, (key_idx, r))) := smap sub_enc subs (key_parts, (idx, r)) in
  Ok (KComp (one_to_zero t) encrypted_key_parts, (key_idx, r)).
Proof. reflexivity. Qed.

Lemma decrypt_comp ds t l idx :
  decrypt_key_data ds (KComp t l) idx =
  let* (decrypted, (key_idx, num_key_parts)) := smap (sub_dec ds) l (idx, 0%N) in
  let* res := recombine t (concat decrypted) num_key_parts in
  Ok (res, key_idx).
Proof. reflexivity. Qed.

Lemma distribute_ok mine L k pos :
  (1 <= k)%N -> lenN mine = k -> 0 < L -> Forall (fun s => length s = L) mine -> (pos + k < two64)%N ->
  distribute_key_data (Some (concat mine)) k pos
  = Ok (combine (map (fun i => N.of_nat i + pos)%N (seq 0 (length mine))) mine).
Proof.
  intros Hk Hm HL HF Hp. unfold distribute_key_data.
  destruct (N.eqb_spec k 1) as [->|Hk1].
  - unfold lenN in Hm. destruct mine as [|p [|? ?]]; simpl in Hm; try lia.
    simpl. rewrite app_nil_r. reflexivity.
  - assert (HC : lenN (concat mine) = (N.of_nat L * k)%N).
    { unfold lenN. rewrite (concat_length L) by auto. unfold lenN in Hm. lia. }
    rewrite HC, N.mod_mul by lia. rewrite N.div_mul by lia. cbn [N.eqb ensure bind].
    destruct (N.eqb_spec (N.of_nat L) 0); [lia|]. cbn [negb assert bind].
    rewrite Nat2N.id. replace (N.to_nat k) with (length mine) by (unfold lenN in Hm; lia).
    rewrite chunks_exact_concat by auto. f_equal. f_equal. apply map_ext_in. intros i Hi.
    apply in_seq in Hi. apply wrap64_small. unfold lenN in Hm. lia.
Qed.

Lemma combine_block (all pre mine post : list bytes) pos :
  all = pre ++ mine ++ post -> lenN pre = pos ->
  combine (map (fun i => N.of_nat i + pos)%N (seq 0 (length mine))) mine =
  map (fun i => (i, nth (N.to_nat i) all [])) (map (fun i => N.of_nat i + pos)%N (seq 0 (length mine))).
Proof.
  intros -> <-. revert pre. induction mine as [|p mine IH]; intros pre; [reflexivity|].
  simpl. f_equal.
  - f_equal. replace (N.to_nat (lenN pre)) with (length pre) by (unfold lenN; lia).
    rewrite app_nth2, Nat.sub_diag by lia. reflexivity.
  - specialize (IH (pre ++ [p])).
    rewrite <- app_assoc in IH. simpl in IH.
    assert (E : map (fun i => N.of_nat i + lenN pre)%N (seq 1 (length mine))
                = map (fun i => N.of_nat i + lenN (pre ++ [p]))%N (seq 0 (length mine))).
    { rewrite <- seq_shift, map_map. apply map_ext. intros i. rewrite lenN_app. change (lenN [p]) with 1%N. lia. }
    rewrite E. exact IH.
Qed.

Lemma block_nodup pos k : NoDup (map (fun i => N.of_nat i + pos)%N (seq 0 k)).
Proof.
  apply FinFun.Injective_map_NoDup; [|apply seq_NoDup]. intros a b H. lia.
Qed.

Lemma NoDup_app_intro {A} (l k : list A) : NoDup l -> NoDup k -> (forall x, In x l -> ~ In x k) -> NoDup (l ++ k).
Proof.
  induction 1 as [|a l Ha HN IH]; simpl; auto. intros HK HD. constructor.
  - intros HI. apply in_app_or in HI as [HI|HI]; [auto|]. apply (HD a); [now left|auto].
  - apply IH; auto.
Qed.

Variable D : list cred.
Variable ds : list decryptor.
Hypothesis HU : Forall usable D.
Hypothesis HD : map_out (decryptor_from_credential cs epk) D = Ok ds.

Definition tree_ok (c : cred) : Prop :=
  forall kp idx r kd idx' r',
    wf_cred c -> 0 < length kp -> (idx < two32)%N ->
    encrypt_key_data cs epk esk c kp idx r = Ok (kd, (idx', r')) ->
    length (encrypted_keys kd) = length (leaves c) /\
    idx' = wrap32 (idx + lenN (leaves c)) /\
    (noacc D (leaves c) (encrypted_keys kd) idx ->
     exists res, decrypt_key_data ds kd idx = Ok (res, idx') /\
       (res = Some kp /\ sat cs D c \/ res = None /\ ~ sat cs D c)).

Lemma leaf_tree_ok c kp idx ct idx' :
  (forall subs n t, c <> Complex subs n t) -> (idx < two32)%N ->
  leaves c = [c] -> leaf_encryption c kp idx ct -> idx' = wrap32 (idx + 1) ->
  length (encrypted_keys (KEnc ct)) = length (leaves c) /\
  idx' = wrap32 (idx + lenN (leaves c)) /\
  (noacc D (leaves c) (encrypted_keys (KEnc ct)) idx ->
   exists res, decrypt_key_data ds (KEnc ct) idx = Ok (res, idx') /\
     (res = Some kp /\ sat cs D c \/ res = None /\ ~ sat cs D c)).
Proof.
  intros HN Hidx -> HL ->. split; [reflexivity|]. split; [reflexivity|]. intros HA.
  cbn [decrypt_key_data].
  assert (HA' : forall d, In d D -> opens cs epk d ct idx -> matches cs c d).
  { intros d Hin HO. apply (HA 0 c ct d); auto. simpl. rewrite N.add_0_r, wrap32_small; auto. }
  destruct (try_decryptors_leaf D ds c kp idx ct HU HD HL HA') as [(-> & S)|(-> & S)]; cbn [bind].
  - exists (Some kp). split; auto. left. split; auto. now apply sat_leaf_iff.
  - exists None. split; auto. right. split; auto. intros C. apply S. now apply sat_leaf_iff in C.
Qed.

Lemma subs_ok L subs :
  0 < L ->
  Forall (fun p => tree_ok (snd p)) subs -> Forall (fun p => 1 <= fst p)%N subs ->
  Forall (fun p => wf_cred (snd p)) subs ->
  forall pre parts all idx r ekps parts' idx' r',
    all = pre ++ parts -> Forall (fun s => length s = L) all -> (lenN all < two64)%N -> (idx < two32)%N ->
    smap sub_enc subs (parts, (idx, r)) = Ok (ekps, (parts', (idx', r'))) ->
    (lenN pre + total_shares subs <= lenN all)%N /\
    length (concat (map (fun p => encrypted_keys (snd p)) ekps))
      = length (concat (map (fun p => leaves (snd p)) subs)) /\
    idx' = wrap32 (idx + lenN (concat (map (fun p => leaves (snd p)) subs))) /\
    (noacc D (concat (map (fun p => leaves (snd p)) subs))
             (concat (map (fun p => encrypted_keys (snd p)) ekps)) idx ->
     exists ls idxs w,
       smap (sub_dec ds) ekps (idx, lenN pre) = Ok (ls, (idx', lenN pre + total_shares subs)%N) /\
       concat ls = map (fun i => (i, nth (N.to_nat i) all [])) idxs /\
       NoDup idxs /\ Forall (fun i => lenN pre <= i < lenN pre + total_shares subs)%N idxs /\
       held cs D subs w /\ lenN idxs = w).
Proof.
  intros HL HT HS HW. induction HT as [|[k c] subs Tc HT IH]; intros pre parts all idx r ekps parts' idx' r' Eall HF HB Hi H.
  - injection H as <- <- <- <-. subst all. repeat split.
    + simpl. rewrite lenN_app. lia.
    + simpl. unfold lenN. simpl. rewrite N.add_0_r, wrap32_small; auto.
    + intros _. exists [], [], 0%N. simpl. rewrite N.add_0_r. repeat split; constructor.
  - apply smap_cons in H as (b & [parts1 [idx1 r1]] & bs & s2 & H1 & H2 & H3).
    injection H3 as -> <-.
    unfold sub_enc in H1 at 1. apply bind_ok in H1 as ([mine rest] & Hsp & H1).
    apply bind_ok in H1 as ([kd [idx2 r2]] & He & H1). injection H1 as <- <- <- <-.
    apply split_at_ok in Hsp as (Eparts & Hk). subst parts.
    inversion HS as [|? ? S1 S2]; subst. inversion HW as [|? ? W1 W2]; subst. simpl in S1, W1, Tc.
    assert (HF' : Forall (fun s => length s = L) (pre ++ mine) /\ Forall (fun s => length s = L) mine).
    { rewrite !Forall_app in HF. rewrite Forall_app. tauto. }
    destruct HF' as [HFp HFm].
    destruct (Tc (concat mine) idx r kd idx2 r2 W1) as (T1 & T2 & T3); auto.
    { rewrite (concat_length L) by auto. unfold lenN in S1. nia. }
    assert (Hidx2 : (idx2 < two32)%N) by (rewrite T2; apply N.mod_lt; discriminate).
    destruct (IH S2 W2 (pre ++ mine) rest (pre ++ mine ++ rest) idx2 r2 bs parts' idx' r')
      as (I1 & I2 & I3 & I4); auto.
    { now rewrite app_assoc. }
    rewrite lenN_app in I1. cbn [map concat snd total_shares fold_right fst]. change (fold_right (fun p n => fst p + n)%N 0%N subs) with (total_shares subs).
    split; [|split; [|split]].
    + lia.
    + rewrite !app_length. lia.
    + rewrite I3, T2, wrap32_add, lenN_app. f_equal. lia.
    + intros HA. apply noacc_app in HA as [HA1 HA2]; auto.
      rewrite <- T2 in HA2.
      destruct (T3 HA1) as (res & Hdec & Hres). destruct (I4 HA2) as (ls & idxs & w & J1 & J2 & J3 & J4 & J5 & J6).
      set (k := lenN mine) in *. rewrite lenN_app in J1, J4. fold k in J1, J4.
      assert (Hmax : N.max (one_to_zero k) 1 = k).
      { unfold one_to_zero. destruct (N.eqb_spec k 1); lia. }
      assert (Hstep : forall l, distribute_key_data res k (lenN pre) = Ok l ->
                 smap (sub_dec ds) ((one_to_zero k, kd) :: bs) (idx, lenN pre)
                 = Ok (l :: ls, (idx', lenN pre + (k + total_shares subs))%N)).
      { intros l Hl. apply smap_cons. exists l, (idx2, (lenN pre + k)%N), ls, (idx', (lenN pre + k + total_shares subs)%N).
        split; [|split].
        - unfold sub_dec. rewrite Hdec. cbn [bind]. rewrite Hmax, Hl. cbn [bind].
          rewrite wrap64_small by lia. reflexivity.
        - exact J1.
        - now rewrite N.add_assoc. }
      destruct Hres as [(-> & HSat)|(-> & HSat)].
      * set (blk := map (fun i => N.of_nat i + lenN pre)%N (seq 0 (length mine))).
        exists (combine blk mine :: ls), (blk ++ idxs), (k + w)%N.
        assert (Hblk : Forall (fun i => lenN pre <= i < lenN pre + k)%N blk).
        { unfold blk. apply Forall_map, Forall_forall. intros i Hin. apply in_seq in Hin. unfold k, lenN in *. lia. }
        split; [|split; [|split; [|split; [|split]]]].
        -- apply Hstep. apply distribute_ok with (L := L); auto. unfold k in *. lia.
        -- simpl. rewrite map_app, <- J2. f_equal. unfold blk.
           apply combine_block with (pre := pre) (post := rest); auto.
        -- apply NoDup_app_intro; auto; [apply block_nodup|].
           intros x X1 X2. rewrite Forall_forall in Hblk, J4. apply Hblk in X1. apply J4 in X2. lia.
        -- apply Forall_app. split; (eapply Forall_impl; [|eassumption]); simpl; intros; lia.
        -- now constructor.
        -- rewrite lenN_app. unfold blk, lenN at 1. rewrite map_length, seq_length. unfold k, lenN in *. lia.
      * exists ([] :: ls), idxs, w.
        split; [|split; [|split; [|split; [|split]]]]; auto.
        -- eapply Forall_impl; [|exact J4]. simpl. intros. lia.
        -- now constructor.
Qed.

Lemma all_trees_ok c : tree_ok c.
Proof.
  induction c as [p|k|k|k|subs n t IH] using cred_ind'; intros kp idx r kd idx' r' HW HL Hi H.
  - cbn in H. injection H as <- <- <-. apply leaf_tree_ok; auto; try (intros; discriminate). cbn. eauto.
  - cbn in H. injection H as <- <- <-. apply leaf_tree_ok; auto; try (intros; discriminate). cbn. eauto.
  - cbn [encrypt_key_data] in H. destruct (box_encrypt_easy cs kp k esk (recipient_box_nonce idx)) as [ct|] eqn:E; [|discriminate].
    injection H as <- <- <-. apply leaf_tree_ok; auto; try (intros; discriminate).
  - discriminate.
  - rewrite encrypt_complex in H. apply bind_ok in H as ([parts r1] & Hsp & H).
    apply bind_ok in H as ([ekps [parts' [idx2 r2]]] & Hm & H). injection H as <- <- <-.
    inversion HW as [| | |? ? ? W1 W2 W3 W4]; subst.
    pose proof (split_ok_parts _ _ _ _ _ _ Hsp) as ((A & B & C) & HLs & _).
    destruct (subs_ok (length kp) subs HL IH W1 W2 [] parts parts idx r1 ekps parts' idx2 r2)
      as (_ & I2 & I3 & I4); auto.
    { unfold two64. change (2 ^ 64)%N with two64 in W4. unfold two64 in W4. lia. }
    cbn [encrypted_keys leaves]. split; auto. split; auto. intros HA.
    destruct (I4 HA) as (ls & idxs & w & J1 & J2 & J3 & J4 & J5 & J6).
    rewrite decrypt_comp. change (lenN (@nil bytes)) with 0%N in *. rewrite N.add_0_l in *. rewrite J1. cbn [bind].
    rewrite J2. rewrite (recombine_selection kp (total_shares subs) t r parts r1 idxs); auto.
    2:{ eapply Forall_impl; [|exact J4]. simpl. intros. lia. }
    cbn [bind]. eexists. split; [reflexivity|].
    pose proof (sat_group_iff cs D subs (total_shares subs) t w J5) as HS.
    rewrite J6. destruct (N.leb_spec t w); [left|right]; split; auto; [now apply HS|].
    intros X. apply HS in X. lia.
Qed.

End Leaf.

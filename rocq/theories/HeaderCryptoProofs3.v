(** More proofs about headers: shape, nonces, acceptance, panics. *)
From Coq Require Import List NArith Bool Lia PeanoNat.
From Coq.Strings Require Import Byte.
From Verif Require Import Base BaseFacts ShamirSpec Shamir ShamirProofs Errors HeaderIo Crypto Proto ProtoSpec ProtoProofs HeaderCrypto
  SplitProofs CredSpec HeaderCryptoProofs HeaderCryptoProofs2.
Import ListNotations.
Local Open Scope N_scope.

(** ** Key trees of the same shape *)

Lemma blank_eq a b : length a = length b -> blank a = blank b.
Proof. unfold blank. now intros ->. Qed.

Lemma leaf_shape cs seed c kp idx r kd st : crypto_ok cs ->
  (forall s n t, c <> Complex s n t) ->
  encrypt_key_data cs (fst (cs_keypair cs seed)) (snd (cs_keypair cs seed)) c kp idx r = Ok (kd, st) ->
  exists ct, kd = KEnc ct /\ length ct = (length kp + 16)%nat.
Proof.
  intros ok HN H. destruct c as [p|k|k|k|s n t].
  - cbn [encrypt_key_data recipient_secret_key bind] in H. injection H as <- <-. eexists. split; [reflexivity|]. now apply aead_easy_length.
  - cbn [encrypt_key_data recipient_secret_key bind] in H. injection H as <- <-. eexists. split; [reflexivity|]. now apply aead_easy_length.
  - cbn [encrypt_key_data] in H. destruct (box_encrypt_easy _ _ _ _ _) eqn:E; [|discriminate]. injection H as <- <-.
    eexists. split; [reflexivity|]. eapply box_easy_length; eauto.
  - discriminate.
  - exfalso. eapply HN. reflexivity.
Qed.

Section Shape.
Variables (cs cs' : cryptosys) (seed seed' : bytes).
Hypothesis ok : crypto_ok cs.
Hypothesis ok' : crypto_ok cs'.

Lemma subs_shape L (subs : list (N * cred)) :
  Forall (fun p => forall c', same_shape (snd p) c' -> forall kp kp' idx idx' r r' kd st kd' st',
    length kp = length kp' ->
    encrypt_key_data cs (fst (cs_keypair cs seed)) (snd (cs_keypair cs seed)) (snd p) kp idx r = Ok (kd, st) ->
    encrypt_key_data cs' (fst (cs_keypair cs' seed')) (snd (cs_keypair cs' seed')) c' kp' idx' r' = Ok (kd', st') ->
    redact_keys kd = redact_keys kd') subs ->
  forall subs' parts parts' s s' ek st ek' st',
    Forall2 (fun p p' => fst p = fst p' /\ same_shape (snd p) (snd p')) subs subs' ->
    Forall (fun b => length b = L) parts -> Forall (fun b => length b = L) parts' ->
    smap (sub_enc cs seed) subs (parts, s) = Ok (ek, st) ->
    smap (sub_enc cs' seed') subs' (parts', s') = Ok (ek', st') ->
    map (fun p => (fst p, redact_keys (snd p))) ek = map (fun p => (fst p, redact_keys (snd p))) ek'.
Proof.
  induction 1 as [|[k c] subs Hc HF IH]; intros subs' parts parts' [i r] [i' r'] ek st ek' st' H2 HL HL' E E'.
  - inversion H2; subst. injection E as <- <-. injection E' as <- <-. reflexivity.
  - inversion H2 as [|? [k' c'] ? subs2 [A B] H2']; subst. simpl in A, B. subst k'.
    apply smap_cons in E as (b & [p1 s1] & bs & s2 & E1 & E2 & E3). injection E3 as -> ->.
    apply smap_cons in E' as (b' & [p1' s1'] & bs' & s2' & E1' & E2' & E3'). injection E3' as -> ->.
    apply bind_ok in E1 as ([mine rest] & Hs & E1). apply bind_ok in E1 as ([kd [i1 r1]] & He & E1). injection E1 as <- <- <-.
    apply bind_ok in E1' as ([mine' rest'] & Hs' & E1'). apply bind_ok in E1' as ([kd' [i1' r1']] & He' & E1'). injection E1' as <- <- <-.
    apply split_at_ok in Hs as (-> & K). apply split_at_ok in Hs' as (-> & K').
    apply Forall_app in HL as [L1 L2]. apply Forall_app in HL' as [L1' L2'].
    cbn [map fst snd]. f_equal.
    + f_equal. simpl in Hc. eapply Hc; [exact B| |exact He|exact He'].
      rewrite (HeaderCryptoProofs.concat_length L _ L1), (HeaderCryptoProofs.concat_length L _ L1'). unfold lenN in *. f_equal. lia.
    + eapply IH; [exact H2'|exact L2|exact L2'|exact E2|exact E2'].
Qed.

Lemma tree_shape c : forall c', same_shape c c' -> forall kp kp' idx idx' r r' kd st kd' st',
  length kp = length kp' ->
  encrypt_key_data cs (fst (cs_keypair cs seed)) (snd (cs_keypair cs seed)) c kp idx r = Ok (kd, st) ->
  encrypt_key_data cs' (fst (cs_keypair cs' seed')) (snd (cs_keypair cs' seed')) c' kp' idx' r' = Ok (kd', st') ->
  redact_keys kd = redact_keys kd'.
Proof.
  assert (LEAF : forall c c', (forall s n t, c <> Complex s n t) -> (forall s n t, c' <> Complex s n t) ->
    forall kp kp' idx idx' r r' kd st kd' st', length kp = length kp' ->
    encrypt_key_data cs (fst (cs_keypair cs seed)) (snd (cs_keypair cs seed)) c kp idx r = Ok (kd, st) ->
    encrypt_key_data cs' (fst (cs_keypair cs' seed')) (snd (cs_keypair cs' seed')) c' kp' idx' r' = Ok (kd', st') ->
    redact_keys kd = redact_keys kd').
  { intros c0 c0' N1 N2 kp kp' idx idx' r r' kd st kd' st' HL E E'.
    apply leaf_shape in E as (ct & -> & X); auto. apply leaf_shape in E' as (ct' & -> & X'); auto.
    cbn [redact_keys]. f_equal. apply blank_eq. lia. }
  induction c as [p|k|k|k|subs n t IH] using cred_ind'; intros c' HS;
    try (inversion HS; subst; apply LEAF; assumption).
  intros kp kp' idx idx' r r' kd st kd' st' HL E E'.
  inversion HS as [? ? N1|? subs' ? ? HS']; subst; [exfalso; eapply N1; reflexivity|].
  rewrite encrypt_complex in E, E'.
  apply bind_ok in E as ([parts r1] & Hsp & E). apply bind_ok in E as ([ek [p2 [i2 r2]]] & Hm & E). injection E as <- <-.
  apply bind_ok in E' as ([parts' r1'] & Hsp' & E'). apply bind_ok in E' as ([ek' [p2' [i2' r2']]] & Hm' & E'). injection E' as <- <-.
  cbn [redact_keys]. f_equal.
  eapply (subs_shape (length kp)); [exact IH|exact HS'| | |exact Hm|exact Hm'].
  - eapply split_ok_parts; eauto.
  - rewrite HL. eapply split_ok_parts; eauto.
Qed.
End Shape.

(** ** Which nonce made which encrypted key *)

Section Positions.
Variables (cs : cryptosys) (seed : bytes).

Definition placed (c : cred) (kd : kdata) (idx : N) : Prop :=
  length (encrypted_keys kd) = length (leaves c) /\
  forall i c' ct, nth_error (leaves c) i = Some c' -> nth_error (encrypted_keys kd) i = Some ct ->
    exists m, leaf_encryption cs seed c' m (wrap32 (idx + N.of_nat i)) ct.

Lemma placed_leaf c ct m idx : idx < two32 -> leaves c = [c] -> leaf_encryption cs seed c m idx ct -> placed c (KEnc ct) idx.
Proof.
  intros Hi HL HE. unfold placed. rewrite HL. split; [reflexivity|].
  intros [|[|i]] c' ct' A B; simpl in A, B; try discriminate. injection A as <-. injection B as <-.
  exists m. rewrite N.add_0_r, wrap32_small; auto.
Qed.

Lemma nth_error_app_cases {A} (l k : list A) i x : nth_error (l ++ k) i = Some x ->
  (i < length l)%nat /\ nth_error l i = Some x \/ (length l <= i)%nat /\ nth_error k (i - length l) = Some x.
Proof.
  intros H. destruct (Nat.lt_ge_cases i (length l)) as [L|L].
  - left. split; auto. now rewrite nth_error_app1 in H.
  - right. split; auto. now rewrite nth_error_app2 in H.
Qed.

Lemma subs_placed (subs : list (N * cred)) :
  Forall (fun p => forall kp idx r kd idx' r', idx < two32 ->
     encrypt_key_data cs (fst (cs_keypair cs seed)) (snd (cs_keypair cs seed)) (snd p) kp idx r = Ok (kd, (idx', r')) ->
     placed (snd p) kd idx /\ idx' = wrap32 (idx + lenN (leaves (snd p)))) subs ->
  forall parts idx r ek parts' idx' r', idx < two32 ->
    smap (sub_enc cs seed) subs (parts, (idx, r)) = Ok (ek, (parts', (idx', r'))) ->
    idx' = wrap32 (idx + lenN (concat (map (fun p => leaves (snd p)) subs))) /\
    length (concat (map (fun p => encrypted_keys (snd p)) ek)) = length (concat (map (fun p => leaves (snd p)) subs)) /\
    forall i c' ct, nth_error (concat (map (fun p => leaves (snd p)) subs)) i = Some c' ->
      nth_error (concat (map (fun p => encrypted_keys (snd p)) ek)) i = Some ct ->
      exists m, leaf_encryption cs seed c' m (wrap32 (idx + N.of_nat i)) ct.
Proof.
  induction 1 as [|[k c] subs Hc HF IH]; intros parts idx r ek parts' idx' r' Hi E.
  - injection E as <- <- <- <-. simpl. rewrite N.add_0_r, wrap32_small by auto. repeat split; auto.
    intros [|i] ? ? ? ?; discriminate.
  - apply smap_cons in E as (b & [p1 [i1 r1]] & bs & s2 & E1 & E2 & E3). injection E3 as -> <-.
    apply bind_ok in E1 as ([mine rest] & Hs & E1). apply bind_ok in E1 as ([kd [i2 r2]] & He & E1). injection E1 as <- <- <- <-.
    destruct (Hc _ _ _ _ _ _ Hi He) as ((P1 & P2) & P3). simpl in P1, P2, P3.
    assert (Hi2 : i2 < two32) by (rewrite P3; apply N.mod_lt; discriminate).
    destruct (IH _ _ _ _ _ _ _ Hi2 E2) as (Q1 & Q2 & Q3).
    cbn [map concat snd]. split; [|split].
    + rewrite Q1, P3, wrap32_add, lenN_app. f_equal. lia.
    + rewrite !app_length. lia.
    + intros i c' ct A B. apply nth_error_app_cases in A as [[A1 A2]|[A1 A2]];
        apply nth_error_app_cases in B as [[B1 B2]|[B1 B2]]; try lia.
      * apply P2; auto.
      * rewrite P1 in B2. destruct (Q3 _ _ _ A2 B2) as (m & Hm). exists m.
        rewrite P3, wrap32_add in Hm. replace (idx + N.of_nat i) with (idx + lenN (leaves c) + N.of_nat (i - length (leaves c))); auto.
        unfold lenN. lia.
Qed.

Lemma all_placed c : forall kp idx r kd idx' r', idx < two32 ->
  encrypt_key_data cs (fst (cs_keypair cs seed)) (snd (cs_keypair cs seed)) c kp idx r = Ok (kd, (idx', r')) ->
  placed c kd idx /\ idx' = wrap32 (idx + lenN (leaves c)).
Proof.
  induction c as [p|k|k|k|subs n t IH] using cred_ind'; intros kp idx r kd idx' r' Hi H.
  - cbn in H. injection H as <- <- <-. split; [|reflexivity]. apply (placed_leaf _ _ kp); auto. cbn. eauto.
  - cbn in H. injection H as <- <- <-. split; [|reflexivity]. apply (placed_leaf _ _ kp); auto. cbn. eauto.
  - cbn [encrypt_key_data] in H. destruct (box_encrypt_easy _ _ _ _ _) as [ct|] eqn:E; [|discriminate].
    injection H as <- <- <-. split; [|reflexivity]. apply (placed_leaf _ _ kp); auto.
  - discriminate.
  - rewrite encrypt_complex in H.
    apply bind_ok in H as ([parts r1] & Hsp & H). apply bind_ok in H as ([ek [p2 [i2 r2]]] & Hm & H). injection H as <- <- <-.
    destruct (subs_placed subs IH _ _ _ _ _ _ _ Hi Hm) as (A & B & C).
    cbn [encrypted_keys leaves]. repeat split; auto.
Qed.
End Positions.

(** ** Acceptance *)

Lemma fold_and_forall {A} (P : A -> Prop) l : fold_right and True (map P l) <-> Forall P l.
Proof.
  induction l; simpl; split; intros H; auto.
  - destruct H. constructor; auto. now apply IHl.
  - inversion H; subst. split; auto. now apply IHl.
Qed.

Section Accept.
Variables (cs : cryptosys) (seed : bytes).
Let esk := snd (cs_keypair cs seed).

Lemma subs_accept L (subs : list (N * cred)) :
  Forall (fun p => forall kp idx r, lenN kp < two32 -> 
     ((exists x, encrypt_key_data cs (fst (cs_keypair cs seed)) esk (snd p) kp idx r = Ok x) <-> realisable cs esk (lenN kp) (snd p))) subs ->
  forall parts idx r,
    Forall (fun b => length b = L) parts -> total_shares subs <= lenN parts -> lenN parts * N.of_nat L < two32 ->
    ((exists x, smap (sub_enc cs seed) subs (parts, (idx, r)) = Ok x) <->
     Forall (fun p => realisable cs esk (fst p * N.of_nat L) (snd p)) subs).
Proof.
  induction 1 as [|[k c] subs Hc HF IH]; intros parts idx r HL HT HB.
  - split; intros; [constructor|]. eexists. reflexivity.
  - cbn [total_shares fold_right fst] in HT.
    change (fold_right (fun p n => fst p + n) 0 subs) with (total_shares subs) in HT.
    assert (exists mine rest, parts = mine ++ rest /\ lenN mine = k /\ @split_at err bytes k parts = Ok (mine, rest)) as (mine & rest & -> & HK & HS).
    { exists (firstn (N.to_nat k) parts), (skipn (N.to_nat k) parts). rewrite firstn_skipn. split; auto. split.
      - unfold lenN in *. rewrite firstn_length. lia.
      - unfold split_at. destruct (N.leb_spec k (lenN parts)); [reflexivity|lia]. }
    apply Forall_app in HL as [L1 L2]. rewrite lenN_app in HT, HB.
    assert (CL : lenN (concat mine) = k * N.of_nat L).
    { unfold lenN in *. rewrite (HeaderCryptoProofs.concat_length L _ L1). lia. }
    simpl in Hc. specialize (Hc (concat mine) idx r). rewrite CL in Hc.
    assert (HB1 : k * N.of_nat L < two32) by nia. specialize (Hc HB1).
    assert (HR : total_shares subs <= lenN rest) by lia.
    assert (HB2 : lenN rest * N.of_nat L < two32) by nia.
    split.
    + intros (x & E). destruct x as [ek st]. apply smap_cons in E as (b & [p1 [i1 r1]] & bs & s2 & E1 & E2 & E3).
      unfold sub_enc in E1. rewrite HS in E1. cbn [bind] in E1. apply bind_ok in E1 as ([kd [i2 r2]] & He & E1).
      injection E1 as <- <- <- <-. constructor.
      * apply Hc. eauto.
      * apply (proj1 (IH rest i2 r2 L2 HR HB2)). eauto.
    + intros HF'. inversion HF' as [|? ? F1 F2]; subst. simpl in F1.
      apply Hc in F1 as ([kd [i2 r2]] & He).
      apply (proj2 (IH rest i2 r2 L2 HR HB2)) in F2 as ([ek st] & E2).
      exists ((one_to_zero (lenN mine), kd) :: ek, st). apply smap_cons.
      exists (one_to_zero (lenN mine), kd), (rest, (i2, r2)), ek, st. repeat split; auto.
      unfold sub_enc. rewrite HS. cbn [bind]. fold esk. rewrite He. reflexivity.
Qed.

Lemma all_accept c : wf_cred c -> forall kp idx r, lenN kp < two32 ->
  ((exists x, encrypt_key_data cs (fst (cs_keypair cs seed)) esk c kp idx r = Ok x) <-> realisable cs esk (lenN kp) c).
Proof.
  induction c as [p|k|k|k|subs n t IH] using cred_ind'; intros HW kp idx r HB.
  - cbn. split; eauto.
  - cbn. split; eauto.
  - cbn [encrypt_key_data realisable]. unfold box_encrypt_easy. destruct (cs_beforenm cs k esk) as [x|].
    + destruct (cs_box_seal cs kp _ x). split; [discriminate|]. eauto.
    + split; [intros (? & ?); discriminate|]. intros H. now destruct H.
  - inversion HW.
  - inversion HW as [| | |? ? ? W1 W2 W3 W4]; subst. change (2 ^ 64) with two64 in W4.
    assert (IH' : Forall (fun p => forall kp idx r, lenN kp < two32 -> 
      ((exists x, encrypt_key_data cs (fst (cs_keypair cs seed)) esk (snd p) kp idx r = Ok x) <-> realisable cs esk (lenN kp) (snd p))) subs).
    { rewrite Forall_forall in *. intros p Hin. apply IH; auto. }
    cbn [realisable]. rewrite fold_and_forall. unfold esk. rewrite encrypt_complex. fold esk. set (n := total_shares subs) in *.
    assert (SUB : forall parts r1, split_key_into_key_parts kp n t r = Ok (parts, r1) -> lenN kp * n < 16 * 1024 * 1024 ->
      ((exists x, smap (sub_enc cs seed) subs (parts, (idx, r1)) = Ok x) <->
       Forall (fun p => realisable cs esk (fst p * lenN kp) (snd p)) subs)).
    { intros parts r1 Hsp Hsz. pose proof (split_ok_parts _ _ _ _ _ _ Hsp) as ((_ & _ & X) & Y & _).
      apply (subs_accept (length kp) subs IH'); auto.
      - lia.
      - rewrite X. fold (lenN kp). unfold two32. lia. }
    split.
    + intros (x & E). apply bind_ok in E as ([parts r1] & Hsp & E). apply bind_ok in E as (y & Hm & E).
      pose proof (split_ok_parts _ _ _ _ _ _ Hsp) as ((A & B & C) & HLs & E255).
      assert (Hsz : lenN kp * n < 16 * 1024 * 1024).
      { unfold split_key_into_key_parts in Hsp.
        destruct (negb (t =? 0)); cbn [ensure bind] in Hsp; [|discriminate].
        destruct (t <=? n); cbn [ensure bind] in Hsp; [|discriminate].
        destruct (N.ltb_spec (wrap64 (lenN kp * n)) MAX_HEADER_LEN) as [M|]; cbn [ensure bind] in Hsp; [|discriminate].
        assert (lenN kp * n < two64).
        { destruct (N.eqb_spec t 1) as [T1|T1].
          - destruct (N.ltb_spec (lenN kp * n) two64); [auto|discriminate].
          - destruct (N.eqb_spec t n) as [T2|T2].
            + destruct (N.ltb_spec (lenN kp * n) two64); [auto|discriminate].
            + specialize (E255 T1 T2). unfold two64, two32 in *. nia. }
        unfold wrap64 in M. rewrite N.mod_small in M by auto. exact M. }
      repeat split; auto.
      * destruct (N.eq_dec t 1), (N.eq_dec t n); auto.
      * apply (SUB parts r1); eauto.
    + intros (A & B & C & E & F).
      assert (Hw : lenN kp * n < two64) by (unfold two64; lia).
      destruct (proj2 (split_acceptance kp n t r Hw)) as (parts & r1 & Hsp & _); [tauto|].
      rewrite Hsp. cbn [bind]. apply (SUB parts r1 Hsp C) in F as ([ek [p2 [i2 r2]]] & ->). cbn [bind]. eauto.
Qed.
End Accept.

(** ** Panics while opening a header *)

Section Panics.
Variables (cs : cryptosys) (epk : bytes) (D : list cred) (ds : list decryptor).
Hypothesis HD : map_out (decryptor_from_credential cs epk) D = Ok ds.

Lemma box_no_panic ct pk sk n : box_decrypt_easy cs ct pk sk n <> Panic.
Proof.
  unfold box_decrypt_easy. destruct (Nat.ltb _ _); [discriminate|].
  destruct (cs_beforenm _ _ _); [|discriminate]. destruct (cs_box_open _ _ _ _ _); discriminate.
Qed.

Lemma decryptor_no_panic d f ct i : decryptor_from_credential cs epk d = Ok f -> f ct i <> Panic.
Proof.
  destruct d; simpl; try discriminate; intros H; injection H as <-; try discriminate.
  pose proof (box_no_panic ct epk k (recipient_box_nonce i)).
  destruct (box_decrypt_easy _ _ _ _ _) as [|[]|]; try discriminate. congruence.
Qed.

Lemma try_no_panic ct i : try_decryptors ds ct i <> Panic.
Proof.
  apply map_out_ok in HD. induction HD as [|d f D' ds' Hf H IH]; simpl; [discriminate|].
  pose proof (decryptor_no_panic _ _ ct i Hf). destruct (f ct i) as [[k|]| |]; cbn [bind]; try discriminate; [|contradiction].
  exact (IH H).
Qed.

Lemma try_some ct i m : try_decryptors ds ct i = Ok (Some m) -> exists d, In d D /\ opens cs epk d ct i.
Proof.
  apply map_out_ok in HD. induction HD as [|d f D' ds' Hf H IH]; simpl; [discriminate|].
  destruct (f ct i) as [[k|]| |] eqn:E; cbn [bind]; try discriminate.
  - intros _. exists d. split; auto. exists f, k. auto.
  - intros X. destruct IH as (d' & A & B); auto. exists d'. auto.
Qed.

(** *** The only two panics *)

Lemma subtree_trans a i b j c k : subtree a i b j -> subtree b j c k -> subtree a i c k.
Proof. induction 1; auto. intros H'. constructor. auto. Qed.

Lemma decrypt_idx d : forall i res i', decrypt_key_data ds d i = Ok (res, i') -> i < two32 ->
  i' = wrap32 (i + lenN (encrypted_keys d)).
Proof.
  induction d as [|ct|t l IH] using kdata_rect'; intros i res i' H Hi.
  - discriminate.
  - cbn [decrypt_key_data] in H. apply bind_ok in H as (o & _ & H). injection H as <- <-. reflexivity.
  - rewrite decrypt_comp in H. apply bind_ok in H as ([ls [j n]] & Hs & H). apply bind_ok in H as (o & _ & H). injection H as <- <-.
    cbn [encrypted_keys]. revert i ls n Hs Hi. generalize 0 as pos.
    induction IH as [|[k d] l Hd HF IHl]; intros pos i ls n Hs Hi.
    + injection Hs as <- <- <-. simpl. rewrite N.add_0_r, wrap32_small; auto.
    + apply smap_cons in Hs as (b & [i1 pos1] & bs & s2 & E1 & E2 & E3). injection E3 as -> <-.
      unfold sub_dec in E1. apply bind_ok in E1 as ([o' i2] & Hd2 & E1). apply bind_ok in E1 as (lst & _ & E1). injection E1 as <- <- <-.
      simpl in Hd. specialize (Hd _ _ _ Hd2 Hi).
      assert (Hi2 : i2 < two32) by (rewrite Hd; apply N.mod_lt; discriminate).
      rewrite (IHl _ _ _ _ E2 Hi2), Hd, wrap32_add. cbn [map concat snd]. rewrite lenN_app. f_equal. lia.
Qed.

Lemma smap_panic {A B S X} (f : A -> S -> outcome X (B * S)) l s :
  smap f l s = Panic -> exists l1 a l2 bs s', l = l1 ++ a :: l2 /\ smap f l1 s = Ok (bs, s') /\ f a s' = Panic.
Proof.
  revert s. induction l as [|a l IH]; intros s H; [discriminate|].
  change (smap f (a :: l) s) with (let* (b, s) := f a s in let* (bs, s) := smap f l s in Ok (b :: bs, s)) in H.
  destruct (f a s) as [[b s1]| |] eqn:E; cbn [bind] in H; try discriminate.
  - destruct (smap f l s1) as [[bs s2]| |] eqn:E2; cbn [bind] in H; try discriminate.
    destruct (IH _ E2) as (l1 & a' & l2 & bs' & s' & -> & X1 & Y).
    exists (a :: l1), a', l2, (b :: bs'), s'. repeat split; auto. apply smap_cons. eauto 8.
  - exists [], a, l, [], s. auto.
Qed.

Lemma xor_all_panic parts : forall key, xor_all key parts = Panic -> exists p, In p parts /\ length (snd p) <> length key.
Proof.
  induction parts as [|[i p] parts IH]; intros key H; simpl in H; [discriminate|].
  unfold xor_vec in H. destruct (Nat.eqb_spec (length key) (length p)) as [E|E]; cbn [bind] in H.
  - destruct (IH _ H) as (q & A & B). exists q. split; [now right|]. rewrite map2_length in B. lia.
  - exists (i, p). split; [now left|]. simpl. lia.
Qed.

Lemma recombine_panic t parts n : recombine t parts n = Panic ->
  2 <= t /\ exists p q, In p parts /\ In q parts /\ length (snd p) <> length (snd q).
Proof.
  unfold recombine. destruct (N.leb_spec t 1); [discriminate|].
  destruct (t =? n) eqn:ET.
  - destruct (N.eqb_spec (lenN parts) t) as [EL|EL]; [|discriminate].
    destruct parts as [|[i0 p0] parts]; [unfold lenN in EL; simpl in EL; lia|].
    intros HP. destruct (xor_all _ _) eqn:EX; cbn [bind] in HP; try discriminate.
    apply xor_all_panic in EX as (p & A & B). rewrite repeat_length in B.
    split; [lia|]. exists p, (i0, p0). repeat split; auto. now left.
  - pose proof (recover_shape parts t) as RS. intros HP.
    destruct (recover_secret parts t) as [|[]|] eqn:ER; try discriminate. inversion RS.
Qed.


Lemma distribute_lengths m k pos l p : 1 <= k -> distribute_key_data (Some m) k pos = Ok l -> In p l -> lenN (snd p) * k = lenN m.
Proof.
  intros Hk. unfold distribute_key_data. destruct (N.eqb_spec k 1) as [->|K1].
  - intros E. injection E as <-. intros [<-|[]]. simpl. lia.
  - destruct (N.eqb_spec (lenN m mod k) 0) as [M|M]; cbn [ensure bind]; [|discriminate].
    destruct (N.eqb_spec (lenN m / k) 0) as [Q|Q]; cbn [negb assert bind]; [discriminate|].
    intros E. injection E as <-. intros Hin.
    assert (HL : lenN m = lenN m / k * k) by (pose proof (N.div_mod (lenN m) k); lia).
    set (q := lenN m / k) in *. clearbody q. destruct p as [i c]. apply in_combine_r in Hin. simpl. rewrite HL. f_equal.
    assert (G : forall n b, (length b = n * N.to_nat q)%nat -> In c (chunks_exact n (N.to_nat q) b) -> length c = N.to_nat q).
    { induction n as [|n IH]; intros b Hb; simpl; [tauto|]. intros [<-|H'].
      - rewrite firstn_length. lia.
      - apply (IH (skipn (N.to_nat q) b)); auto. rewrite skipn_length. lia. }
    assert (HB : (length m = N.to_nat k * N.to_nat q)%nat) by (unfold lenN in HL; lia).
    unfold lenN. rewrite (G _ _ HB Hin). lia.
Qed.

Lemma parts_members_from l0 i0 : i0 < two32 -> forall l l1 i pos ls st, l0 = l1 ++ l ->
  i = wrap32 (i0 + lenN (concat (map (fun p => encrypted_keys (snd p)) l1))) ->
  smap (sub_dec ds) l (i, pos) = Ok (ls, st) ->
  forall p, In p (concat ls) -> exists k m, member_key ds l0 i0 k m /\ lenN (snd p) * k = lenN m.
Proof.
  intros Hi0. induction l as [|[k d] l IH]; intros l1 i pos ls st E0 Ei Hs p Hp.
  - injection Hs as <- <-. destruct Hp.
  - apply smap_cons in Hs as (b & [i1 pos1] & bs & s2 & E1 & E2 & E3). injection E3 as -> <-.
    unfold sub_dec in E1. apply bind_ok in E1 as ([o i2] & Hd & E1). apply bind_ok in E1 as (lst & Hdist & E1). injection E1 as <- <- <-.
    assert (Hi : i < two32) by (rewrite Ei; apply N.mod_lt; discriminate).
    simpl in Hp. apply in_app_or in Hp as [Hp|Hp].
    + destruct o as [m|]; [|injection Hdist as <-; destruct Hp].
      exists (N.max k 1), m. split; [|eapply distribute_lengths; eauto; lia].
      apply (member_key_intro ds l0 i0 l1 k d l m i2); auto. unfold wrap32 in Ei. change (2 ^ 32) with two32. rewrite <- Ei. exact Hd.
    + apply (IH (l1 ++ [(k, d)]) i2 _ bs st) with (p := p) in E2; auto.
      * now rewrite <- app_assoc.
      * rewrite (decrypt_idx _ _ _ _ Hd Hi), Ei, wrap32_add, map_app, concat_app, lenN_app. simpl. rewrite app_nil_r. f_equal. lia.
Qed.

Lemma parts_members l i ls st : i < two32 -> smap (sub_dec ds) l (i, 0) = Ok (ls, st) ->
  forall p, In p (concat ls) -> exists k m, member_key ds l i k m /\ lenN (snd p) * k = lenN m.
Proof.
  intros Hi Hs. apply (parts_members_from l i Hi l [] i 0 ls st); auto.
  simpl. rewrite N.add_0_r, wrap32_small; auto.
Qed.

Lemma decrypt_panic root d : forall i, i < two32 -> subtree root 0 d i -> decrypt_key_data ds d i = Panic -> malformed_group ds root.
Proof.
  induction d as [|ct|t l IH] using kdata_rect'; intros i Hi Hsub H.
  - discriminate.
  - cbn [decrypt_key_data] in H. pose proof (try_no_panic ct i). destruct (try_decryptors ds ct i); cbn [bind] in H; try discriminate. contradiction.
  - rewrite decrypt_comp in H. destruct (smap (sub_dec ds) l (i, 0)) as [[ls [j n]]| |] eqn:Hs; cbn [bind] in H; try discriminate.
    + destruct (recombine t (concat ls) n) eqn:HR; cbn [bind] in H; try discriminate.
      apply recombine_panic in HR as (T2 & p & q & Hp & Hq & Hne). exists t, l, i. split; auto. right. split; auto.
      destruct (parts_members _ _ _ _ Hi Hs p Hp) as (k1 & m1 & M1 & L1).
      destruct (parts_members _ _ _ _ Hi Hs q Hq) as (k2 & m2 & M2 & L2).
      exists k1, m1, k2, m2. split; [exact M1|]. split; [exact M2|].
      assert (K1 : 1 <= k1) by (destruct M1; lia). assert (K2 : 1 <= k2) by (destruct M2; lia).
      rewrite <- L1, <- L2. intros X. apply Hne. rewrite <- !N.mul_assoc, (N.mul_comm k2 k1) in X. apply N.mul_cancel_r in X; [unfold lenN in X; lia|]. apply N.neq_mul_0. lia.
    + apply smap_panic in Hs as (l1 & [k d] & l2 & bs & [j pos] & -> & H1 & H2).
      assert (Hj : j = wrap32 (i + lenN (concat (map (fun p => encrypted_keys (snd p)) l1)))).
      { assert (DI : decrypt_key_data ds (KComp 0 l1) i = Ok (match rev (concat bs) with [] => None | (_, key) :: _ => Some key end, j)).
        { rewrite decrypt_comp, H1. reflexivity. }
        apply decrypt_idx in DI; auto. }
      assert (Hj2 : j < two32) by (rewrite Hj; apply N.mod_lt; discriminate).
      assert (Hsub' : subtree root 0 d j).
      { eapply subtree_trans; [exact Hsub|]. apply (subtree_member t l1 k d l2). unfold wrap32, two32 in Hj.
        change (2 ^ 32) with 4294967296. rewrite <- Hj. constructor. }
      unfold sub_dec in H2. destruct (decrypt_key_data ds d j) as [[o j2]| |] eqn:Hd; cbn [bind] in H2; try discriminate.
      * unfold distribute_key_data in H2. destruct o as [kd|]; cbn [bind] in H2; [|discriminate].
        destruct (N.eqb_spec (N.max k 1) 1) as [K1|K1]; cbn [bind] in H2; [discriminate|].
        destruct (N.eqb_spec (lenN kd mod N.max k 1) 0) as [M|M]; cbn [ensure bind] in H2; [|discriminate].
        destruct (N.eqb_spec (lenN kd / N.max k 1) 0) as [Q|Q]; cbn [negb assert bind] in H2; [|discriminate].
        assert (EK : kd = []).
        { pose proof (N.div_mod (lenN kd) (N.max k 1)). rewrite Q, M in H0. unfold lenN in H0. destruct kd; auto. simpl in H0. lia. }
        subst kd. exists t, (l1 ++ (k, d) :: l2), i. split; auto. left. exists (N.max k 1). split; [lia|].
        apply (member_key_intro ds _ i l1 k d l2 [] j2); auto. unfold wrap32 in Hj. change (2 ^ 32) with two32. rewrite <- Hj. exact Hd.
      * rewrite Forall_forall in IH. apply (IH (k, d)) with (i := j); auto. apply in_or_app. right. now left.
Qed.

(** *** Nothing opens: no panic *)

Lemma closed_none root d : 
  (forall ct i d', In d' D -> subtree root 0 (KEnc ct) i -> ~ opens cs epk d' ct i) ->
  forall i, i < two32 -> subtree root 0 d i ->
  decrypt_key_data ds d i <> Panic /\ (forall m i', decrypt_key_data ds d i <> Ok (Some m, i')).
Proof.
  intros HC. induction d as [|ct|t l IH] using kdata_rect'; intros i Hi Hsub.
  - split; [discriminate|]. intros; discriminate.
  - cbn [decrypt_key_data]. pose proof (try_no_panic ct i) as NP. destruct (try_decryptors ds ct i) as [[m|]| |] eqn:E; cbn [bind]; split; try discriminate; try contradiction.
    intros m' i' _. apply try_some in E as (d & A & B). now apply (HC ct i d A Hsub).
  - rewrite decrypt_comp.
    assert (SM : match smap (sub_dec ds) l (i, 0) with Ok (ls, _) => concat ls = [] | Err _ => True | Panic => False end).
    { rewrite Forall_forall in IH.
      assert (G : forall l1 l2 pos, l = l1 ++ l2 -> let j := wrap32 (i + lenN (concat (map (fun p => encrypted_keys (snd p)) l1))) in
                 match smap (sub_dec ds) l2 (j, pos) with Ok (ls, _) => concat ls = [] | Err _ => True | Panic => False end).
      { intros l1 l2. revert l1. induction l2 as [|[k d] l2 IHl]; intros l1 pos El j; [reflexivity|].
        assert (Hj2 : j < two32) by (apply N.mod_lt; discriminate).
        assert (Hsub' : subtree root 0 d j).
        { eapply subtree_trans; [exact Hsub|]. rewrite El. apply (subtree_member t l1 k d l2).
          change (2 ^ 32) with two32. fold (wrap32 (i + lenN (concat (map (fun p => encrypted_keys (snd p)) l1)))). fold j. constructor. }
        destruct (IH (k, d)) with (i := j) as (A & B); auto.
        { rewrite El. apply in_or_app. right. now left. }
        simpl in A, B.
        change (smap (sub_dec ds) ((k, d) :: l2) (j, pos)) with
          (let* (b, s) := sub_dec ds (k, d) (j, pos) in let* (bs, s) := smap (sub_dec ds) l2 s in Ok (b :: bs, s)).
        unfold sub_dec at 1. destruct (decrypt_key_data ds d j) as [[[m|] j2]| |] eqn:Hd; cbn [bind]; auto.
        { now destruct (B m j2). }
        cbn [distribute_key_data bind].
        specialize (IHl (l1 ++ [(k, d)]) (wrap64 (pos + N.max k 1))). rewrite <- app_assoc in IHl. specialize (IHl El).
        cbv zeta in IHl.
        assert (EJ : j2 = wrap32 (i + lenN (concat (map (fun p => encrypted_keys (snd p)) (l1 ++ [(k, d)]))))).
        { rewrite (decrypt_idx _ _ _ _ Hd Hj2). unfold j. rewrite wrap32_add, map_app, concat_app, lenN_app. simpl. rewrite app_nil_r. f_equal. lia. }
        rewrite <- EJ in IHl.
        destruct (smap (sub_dec ds) l2 (j2, wrap64 (pos + N.max k 1))) as [[ls st]| |]; cbn [bind]; auto. }
      specialize (G [] l 0 eq_refl). simpl in G. rewrite N.add_0_r, wrap32_small in G by auto. exact G. }
    destruct (smap (sub_dec ds) l (i, 0)) as [[ls [j n]]| |]; cbn [bind]; [|split; [discriminate|intros; discriminate]|contradiction].
    rewrite SM. unfold recombine. simpl rev.
    destruct (N.leb_spec t 1); [cbn; split; [discriminate|intros; discriminate]|].
    destruct (t =? n).
    + destruct (N.eqb_spec (lenN (@nil (N * bytes))) t); [unfold lenN in *; simpl in *; lia|]. cbn. split; [discriminate|intros; discriminate].
    + pose proof (recover_shape [] t) as RS.
      destruct (recover_secret [] t) as [s|[]|] eqn:E; cbn [bind]; try (split; [discriminate|intros; discriminate]).
      * exfalso. inversion RS. unfold lenN in *. simpl in *. lia.
      * inversion RS.
Qed.
End Panics.

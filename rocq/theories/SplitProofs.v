(** Splitting a group key and recombining the parts. *)
From Coq Require Import List NArith Bool Lia PeanoNat Permutation.
From Coq.Strings Require Import Byte.
From Verif Require Import Base BaseFacts ShamirSpec Shamir ShamirProofs ShamirSecrecy Errors HeaderIo Crypto Proto HeaderCrypto.
Import ListNotations.

(** ** Xor of byte strings *)

Definition zeros (L : nat) : bytes := repeat x00 L.
Notation bx := (map2 bxor).
Definition xorl (L : nat) (l : list bytes) : bytes := fold_right bx (zeros L) l.

Lemma bx_length a b L : length a = L -> length b = L -> length (bx a b) = L.
Proof. intros. rewrite map2_length. lia. Qed.

Lemma xorl_length L l : Forall (fun s => length s = L) l -> length (xorl L l) = L.
Proof. induction 1; simpl; [apply repeat_length|]. now apply bx_length. Qed.

Lemma bx_comm a b : bx a b = bx b a.
Proof.
  revert b; induction a as [|x a IH]; intros [|y b]; simpl; auto. rewrite bxor_comm. f_equal. apply IH.
Qed.

Lemma bx_assoc a b c : bx (bx a b) c = bx a (bx b c).
Proof.
  revert b c; induction a as [|x a IH]; intros [|y b] [|z c]; simpl; auto.
  rewrite bxor_assoc. f_equal. apply IH.
Qed.

Lemma bx_zeros_r a L : length a = L -> bx a (zeros L) = a.
Proof. intros <-. induction a; simpl; auto. rewrite bxor_0_r. f_equal. exact IHa. Qed.

Lemma bx_zeros_l a L : length a = L -> bx (zeros L) a = a.
Proof. intros. rewrite bx_comm. now apply bx_zeros_r. Qed.

Lemma bx_self a : bx a a = zeros (length a).
Proof. unfold zeros. induction a; simpl; auto. rewrite bxor_nilpotent. f_equal. exact IHa. Qed.

Lemma bx_cancel a b : length a = length b -> bx a (bx a b) = b.
Proof. intros. rewrite <- bx_assoc, bx_self. now apply bx_zeros_l. Qed.

Lemma bx_inj a b c L : length a = L -> length b = L -> length c = L -> bx a b = bx a c -> b = c.
Proof.
  intros Ha Hb Hc H. rewrite <- (bx_cancel a b), <- (bx_cancel a c) by lia. now rewrite H.
Qed.

Lemma xorl_app L l k : Forall (fun s => length s = L) l -> Forall (fun s => length s = L) k ->
  xorl L (l ++ k) = bx (xorl L l) (xorl L k).
Proof.
  intros Hl Hk. induction Hl; simpl.
  - symmetry. apply bx_zeros_l. now apply xorl_length.
  - rewrite IHHl, bx_assoc. reflexivity.
Qed.

Lemma xorl_perm L l k : Permutation l k -> xorl L l = xorl L k.
Proof.
  induction 1; simpl; auto.
  - now rewrite IHPermutation.
  - rewrite <- !bx_assoc, (bx_comm y x). reflexivity.
  - congruence.
Qed.

Lemma xor_vec_ok {E} a b : length a = length b -> @xor_vec E a b = Ok (bx a b).
Proof. intros H. unfold xor_vec. rewrite H, Nat.eqb_refl. reflexivity. Qed.

Lemma xor_all_ok L parts : forall key,
  length key = L -> Forall (fun p => length (snd p) = L) parts ->
  xor_all key parts = Ok (bx key (xorl L (map snd parts))).
Proof.
  induction parts as [|[i p] parts IH]; intros key Hk HF; simpl.
  - rewrite bx_zeros_r; auto.
  - inversion HF; subst. simpl in *. rewrite xor_vec_ok by lia. cbn [bind].
    rewrite IH; auto. 2:{ apply bx_length; auto. }
    rewrite bx_assoc. reflexivity.
Qed.

(** ** The xor split *)

(** Random row [m] of width [L]. *)
Definition row (r : rng) (L m : nat) : bytes := map (fun j => r (m * L + j)) (seq 0 L).

Lemma row_length r L m : length (row r L m) = L.
Proof. unfold row. now rewrite map_length, seq_length. Qed.

Definition rows (r : rng) (L k : nat) : list bytes := map (row r L) (seq 0 k).

Lemma rows_length r L k : length (rows r L k) = k.
Proof. unfold rows. now rewrite map_length, seq_length. Qed.

Lemma rows_lengths r L k : Forall (fun s => length s = L) (rows r L k).
Proof. apply Forall_map, Forall_forall. intros. apply row_length. Qed.

Lemma rows_S r L k : rows r L (S k) = row r L 0 :: rows (fun i => r (L + i)) L k.
Proof.
  unfold rows. cbn [seq map]. f_equal. rewrite <- seq_shift, map_map. apply map_ext. intros m.
  unfold row. apply map_ext. intros j. f_equal. lia.
Qed.

Lemma xor_split_spec k : forall x r,
  exists r', xor_split k x r = Ok (rows r (length x) k ++ [bx x (xorl (length x) (rows r (length x) k))], r')
    /\ forall i, r' i = r (k * length x + i).
Proof.
  induction k as [|k IH]; intros x r; cbn [xor_split].
  - exists r. split; [|reflexivity]. unfold rows. simpl. rewrite bx_zeros_r; auto.
  - cbn [rng_fill]. unfold rng_fill.
    rewrite xor_vec_ok by now rewrite map_length, seq_length. cbn [bind].
    set (v := map r (seq 0 (length x))).
    assert (Hv : v = row r (length x) 0) by reflexivity.
    assert (Lv : length v = length x) by (unfold v; now rewrite map_length, seq_length).
    destruct (IH (bx x v) (fun i => r (length x + i))) as (r' & E & Hr).
    rewrite E. cbn [bind]. rewrite (bx_length x v (length x)) in * by auto.
    exists r'. split.
    + rewrite rows_S, <- Hv. simpl. rewrite bx_assoc. reflexivity.
    + intros i. rewrite Hr. f_equal. simpl. lia.
Qed.

(** ** Acceptance of a split *)

Lemma split_cases key n t r :
  (lenN key * n < two64)%N ->
  split_key_into_key_parts key n t r =
    if (t =? 0)%N then Err EZeroThreshold
    else if (n <? t)%N then Err EThresholdTooLarge
    else if (MAX_HEADER_LEN <=? lenN key * n)%N then Err EKeySchemeTooLarge
    else if (t =? 1)%N then Ok (repeat key (N.to_nat n), r)
    else if (t =? n)%N then xor_split (N.to_nat n - 1) key r
    else map_err EShare (create_secret_shares key n t r).
Proof.
  intros Hw. unfold split_key_into_key_parts, wrap64.
  destruct (N.eqb_spec t 0); cbn [negb ensure bind]; auto.
  destruct (N.leb_spec t n), (N.ltb_spec n t); cbn [ensure bind]; auto; try lia.
  rewrite N.mod_small by exact Hw.
  destruct (N.ltb_spec (lenN key * n) MAX_HEADER_LEN), (N.leb_spec MAX_HEADER_LEN (lenN key * n));
    cbn [ensure bind]; auto; try lia.
  destruct (N.ltb_spec (lenN key * n) two64); [|lia].
  destruct (N.eqb_spec t 1); cbn [assert bind]; auto.
Qed.

Lemma split_ok_parts key n t r parts r' :
  split_key_into_key_parts key n t r = Ok (parts, r') ->
  (1 <= t /\ t <= n /\ lenN parts = n)%N /\ Forall (fun s => length s = length key) parts /\
  (t <> 1 -> t <> n -> n <= 255)%N.
Proof.
  unfold split_key_into_key_parts. intros H.
  destruct (N.eqb_spec t 0); cbn [negb ensure bind] in H; [discriminate|].
  destruct (N.leb_spec t n); cbn [ensure bind] in H; [|discriminate].
  destruct (wrap64 (lenN key * n) <? MAX_HEADER_LEN)%N; cbn [ensure bind] in H; [|discriminate].
  assert (1 <= t)%N by lia.
  destruct (N.eqb_spec t 1) as [E1|E1].
  { destruct (lenN key * n <? two64)%N; cbn [assert bind] in H; [|discriminate].
    inversion H; subst. unfold lenN. rewrite repeat_length. split; [lia|].
    split; [|congruence]. apply Forall_forall. intros s Hs. apply repeat_spec in Hs. now subst. }
  destruct (N.eqb_spec t n) as [E2|E2].
  { destruct (lenN key * n <? two64)%N; cbn [assert bind] in H; [|discriminate].
    destruct (xor_split_spec (N.to_nat n - 1) key r) as (r'' & E & _). rewrite E in H. inversion H; subst.
    split; [|split; [|congruence]].
    - unfold lenN. rewrite app_length, rows_length. simpl. lia.
    - apply Forall_app. split; [apply rows_lengths|]. constructor; [|constructor].
      apply bx_length; auto. apply xorl_length, rows_lengths. }
  destruct (create_secret_shares key n t r) as [[p q]|e|] eqn:E; cbn [map_err] in H; try discriminate.
  inversion H; subst.
  pose proof (proj1 (proj1 (proj2 (create_errors key n t r))) (ex_intro _ _ E)) as (A & B & C).
  destruct (create_closed_form key n t r) as (r'' & E' & _); auto. rewrite E in E'. inversion E'; subst.
  split; [|split].
  - unfold lenN. rewrite map_length, seq_length. lia.
  - apply Forall_map, Forall_forall. intros i _. unfold share_at. now rewrite map_length, seq_length.
  - auto.
Qed.

(** ** Recombination *)

Lemma nodup_full_perm (idxs : list N) n :
  NoDup idxs -> Forall (fun i => i < N.of_nat n)%N idxs -> length idxs = n ->
  Permutation idxs (map N.of_nat (seq 0 n)).
Proof.
  intros ND HF HL. apply NoDup_Permutation_bis; auto.
  - rewrite map_length, seq_length. lia.
  - intros i Hi. rewrite Forall_forall in HF. specialize (HF i Hi).
    apply in_map_iff. exists (N.to_nat i). split; [lia|]. apply in_seq. lia.
Qed.

Lemma map_nth_all {A} (d : A) (l : list A) : map (fun i => nth i l d) (seq 0 (length l)) = l.
Proof.
  induction l as [|a l IH]; simpl; auto. f_equal. rewrite <- seq_shift, map_map. exact IH.
Qed.

Lemma recombine_selection key n t r parts r' idxs :
  split_key_into_key_parts key n t r = Ok (parts, r') ->
  NoDup idxs -> Forall (fun i => i < n)%N idxs ->
  recombine (one_to_zero t) (map (fun i => (i, nth (N.to_nat i) parts [])) idxs) n
  = Ok (if (t <=? lenN idxs)%N then Some key else None).
Proof.
  intros HS ND HF.
  destruct (split_ok_parts _ _ _ _ _ _ HS) as ((H1 & H2 & H3) & HL & H255).
  unfold split_key_into_key_parts in HS.
  destruct (N.eqb_spec t 0); [lia|]. cbn [negb ensure bind] in HS.
  destruct (N.leb_spec t n); [|lia]. cbn [ensure bind] in HS.
  destruct (wrap64 (lenN key * n) <? MAX_HEADER_LEN)%N; cbn [ensure bind] in HS; [|discriminate].
  unfold recombine, one_to_zero.
  destruct (N.eqb_spec t 1) as [E1|E1].
  { destruct (lenN key * n <? two64)%N; cbn [assert bind] in HS; [|discriminate].
    inversion HS; subst parts r' t. clear HS. change (0 <=? 1)%N with true. cbn [negb].
    destruct idxs as [|i0 idxs0] using rev_ind; [reflexivity|]. clear IHidxs0.
    rewrite map_app, rev_app_distr. cbn [map rev app].
    replace (1 <=? lenN (idxs0 ++ [i0]))%N with true.
    2:{ symmetry. apply N.leb_le. unfold lenN. rewrite app_length. simpl. lia. }
    f_equal. f_equal. apply repeat_nth.
    apply Forall_app in HF. destruct HF as [_ HF]. inversion HF; subst. lia. }
  destruct (N.leb_spec t 1); [lia|].
  destruct (N.eqb_spec t n) as [E2|E2].
  { subst t. destruct (lenN key * n <? two64)%N; cbn [assert bind] in HS; [|discriminate].
    assert (Hle : (lenN idxs <= n)%N).
    { unfold lenN. assert (length idxs <= N.to_nat n); [|lia].
      rewrite <- (seq_length (N.to_nat n) 0), <- (map_length N.of_nat). apply NoDup_incl_length; auto.
      intros i Hi. rewrite Forall_forall in HF. specialize (HF i Hi). apply in_map_iff.
      exists (N.to_nat i). split; [lia|]. apply in_seq. lia. }
    replace (lenN (map (fun i => (i, nth (N.to_nat i) parts [])) idxs)) with (lenN idxs)
      by (unfold lenN; now rewrite map_length).
    destruct (N.eqb_spec (lenN idxs) n) as [E3|E3], (N.leb_spec n (lenN idxs)); try lia; auto.
    assert (P : Permutation idxs (map N.of_nat (seq 0 (N.to_nat n)))).
    { apply nodup_full_perm; auto; rewrite ?N2Nat.id; auto. unfold lenN in E3. lia. }
    set (sel := map (fun i => (i, nth (N.to_nat i) parts [])) idxs).
    assert (HF2 : Forall (fun p => length (snd p) = length key) sel).
    { apply Forall_map, Forall_forall. intros i Hi. simpl. rewrite Forall_forall in HF, HL.
      apply HL, nth_In. specialize (HF i Hi). unfold lenN in H3. lia. }
    assert (HX : xorl (length key) (map snd sel) = key).
    { unfold sel. rewrite map_map. simpl.
      assert (P2 : Permutation (map (fun i => nth (N.to_nat i) parts []) idxs) parts).
      { etransitivity; [apply Permutation_map; exact P|]. rewrite map_map.
        replace (map (fun x => nth (N.to_nat (N.of_nat x)) parts []) (seq 0 (N.to_nat n))) with parts; auto.
        replace (N.to_nat n) with (length parts) by (unfold lenN in H3; lia).
        rewrite <- (map_nth_all [] parts) at 1. apply map_ext. intros. now rewrite Nat2N.id. }
      rewrite (xorl_perm _ _ _ P2).
      destruct (xor_split_spec (N.to_nat n - 1) key r) as (r'' & E & _). rewrite E in HS. inversion HS; subst parts r''.
      pose proof (rows_lengths r (length key) (N.to_nat n - 1)) as RL.
      pose proof (xorl_length _ _ RL) as XL.
      rewrite xorl_app; auto.
      2:{ constructor; [|constructor]. now apply bx_length. }
      simpl. rewrite bx_zeros_r by now apply bx_length.
      rewrite (bx_comm key). apply bx_cancel. auto. }
    destruct sel as [|[i0 p0] sel'] eqn:ES.
    { exfalso. assert (length idxs = 0) by (rewrite <- (map_length (fun i => (i, nth (N.to_nat i) parts [])) idxs); fold sel; rewrite ES; reflexivity).
      unfold lenN in E3. lia. }
    rewrite <- ES in *.
    assert (Lp : length p0 = length key).
    { rewrite ES in HF2. inversion HF2; auto. }
    rewrite Lp, (xor_all_ok (length key)); auto using repeat_length.
    cbn [bind]. rewrite HX. fold (zeros (length key)). rewrite bx_zeros_l; auto. }
  destruct (N.leb_spec t (lenN idxs)) as [HT|HT].
  - destruct (recover_from_shares key n t r idxs) as (sh & r2 & EC & _ & _ & ER); auto.
    rewrite EC in HS. cbn [map_err] in HS. inversion HS; subst. rewrite ER. reflexivity.
  - set (sel := map (fun i => (i, nth (N.to_nat i) parts [])) idxs).
    assert (Hfst : map fst sel = idxs) by (unfold sel; rewrite map_map; apply map_id).
    assert (Hlen : lenN sel = lenN idxs) by (unfold lenN, sel; now rewrite map_length).
    destruct (recover_shape sel t) as [Hz|Hz HN|Hz HN Hlt|s Hz HN Hle Hin Hno|s s' Hz HN Hle HI Hin Hin' Hlen'|L Hz HN Hle HI HLen];
      try lia; auto.
    rewrite Hfst in HN. contradiction.
Qed.

(** ** Secrecy of the xor split *)

Fixpoint assoc_obs (l : list (N * bytes)) (i : N) (d : bytes) : bytes :=
  match l with
  | [] => d
  | (j, o) :: l => if N.eqb i j then o else assoc_obs l i d
  end.

Lemma assoc_obs_in l i d : (exists o, In (i, o) l /\ assoc_obs l i d = o) \/ (~ In i (map fst l) /\ assoc_obs l i d = d).
Proof.
  induction l as [|[j o] l IH]; simpl; auto.
  destruct (N.eqb_spec i j) as [->|]; [left; exists o; auto|].
  destruct IH as [(o' & A & B)|(A & B)]; [left; exists o'; auto|]. right. split; auto.
  intros [|]; auto.
Qed.

Lemma assoc_combine idxs obs d :
  NoDup idxs -> length obs = length idxs ->
  map (fun i => assoc_obs (combine idxs obs) i d) idxs = obs.
Proof.
  intros ND. revert obs. induction idxs as [|i l IH]; intros [|o os] H; simpl in *; auto; try lia.
  inversion ND as [|? ? Hi ND']; subst. rewrite N.eqb_refl. f_equal. transitivity (map (fun i => assoc_obs (combine l os) i d) l); [|apply IH; auto; lia].
  apply map_ext_in. intros j Hj. destruct (N.eqb_spec j i); auto. subst. contradiction.
Qed.

Section XorSecrecy.
  Context (key : bytes) (n : N) (idxs : list N) (obs : list bytes).
  Hypothesis Hn : (2 <= n)%N.
  Hypothesis Hfit : (lenN key * n < MAX_HEADER_LEN)%N.
  Hypothesis ND : NoDup idxs.
  Hypothesis Hlen : (lenN idxs = n - 1)%N.
  Hypothesis Hidx : Forall (fun i => i < n)%N idxs.
  Hypothesis Hobs : length obs = length idxs.
  Hypothesis HobsL : Forall (fun o => length o = length key) obs.

  Let L := length key.
  Let k := N.to_nat n - 1.

  Definition parts_of (r : rng) : list bytes := rows r L k ++ [bx key (xorl L (rows r L k))].

  Lemma parts_of_split r :
    exists r', split_key_into_key_parts key n n r = Ok (parts_of r, r').
  Proof.
    destruct (xor_split_spec k key r) as (r' & E & _). exists r'.
    rewrite split_cases by (unfold MAX_HEADER_LEN, two64 in *; lia).
    destruct (N.eqb_spec n 0); [lia|]. rewrite N.ltb_irrefl.
    destruct (N.leb_spec MAX_HEADER_LEN (lenN key * n)); [lia|].
    destruct (N.eqb_spec n 1); [lia|]. rewrite N.eqb_refl. exact E.
  Qed.

  Definition xshows (r : rng) : Prop :=
    exists parts r', split_key_into_key_parts key n n r = Ok (parts, r') /\
                     map (fun i => nth (N.to_nat i) parts []) idxs = obs.

  Lemma xshows_iff r : xshows r <-> map (fun i => nth (N.to_nat i) (parts_of r) []) idxs = obs.
  Proof.
    destruct (parts_of_split r) as (r' & E). unfold xshows. split.
    - intros (p & q & E' & H). rewrite E in E'. injection E' as <- <-. exact H.
    - intros H. exists (parts_of r), r'. auto.
  Qed.

  (** The one index that is not shown. *)
  Lemma missing_index : exists m, (m < n)%N /\ ~ In m idxs /\ Permutation (m :: idxs) (map N.of_nat (seq 0 (N.to_nat n))).
  Proof.
    set (all := map N.of_nat (seq 0 (N.to_nat n))).
    assert (E : exists m, In m all /\ ~ In m idxs).
    { assert (D : forall x, {~ In x idxs} + {~ ~ In x idxs})
        by (intros x; destruct (in_dec N.eq_dec x idxs); [right; tauto|now left]).
      destruct (Exists_dec (fun m => ~ In m idxs) all D) as [H|H].
      - apply Exists_exists in H. destruct H as (m & A & B). eauto.
      - exfalso. assert (length all <= length idxs).
        { apply NoDup_incl_length.
          - apply FinFun.Injective_map_NoDup; [|apply seq_NoDup]. intros a b. lia.
          - intros x Hx. destruct (in_dec N.eq_dec x idxs) as [|Hn']; auto.
            exfalso. apply H. apply Exists_exists. eauto. }
        unfold all in H0. rewrite map_length, seq_length in H0. unfold lenN in Hlen. lia. }
    destruct E as (m & A & B). exists m. unfold all in A. apply in_map_iff in A as (x & <- & Hx). apply in_seq in Hx.
    split; [lia|]. split; auto.
    apply nodup_full_perm.
    - constructor; auto.
    - constructor; [lia|]. rewrite N2Nat.id. auto.
    - simpl. unfold lenN in Hlen. lia.
  Qed.

  (** A full list of parts showing [obs] whose xor is the key. *)
  Definition good (P : list bytes) : Prop :=
    length P = N.to_nat n /\ Forall (fun s => length s = L) P /\ xorl L P = key /\
    map (fun i => nth (N.to_nat i) P []) idxs = obs.

  Lemma perm_nth_all (P : list bytes) l :
    length P = N.to_nat n -> Permutation l (map N.of_nat (seq 0 (N.to_nat n))) ->
    Permutation (map (fun i => nth (N.to_nat i) P []) l) P.
  Proof.
    intros HP Pm. etransitivity; [apply Permutation_map; exact Pm|]. rewrite map_map.
    replace (map (fun x => nth (N.to_nat (N.of_nat x)) P []) (seq 0 (N.to_nat n))) with P; auto.
    rewrite <- HP. rewrite <- (map_nth_all [] P) at 1. apply map_ext. intros. now rewrite Nat2N.id.
  Qed.

  Lemma good_unique P Q : good P -> good Q -> P = Q.
  Proof.
    intros (P1 & P2 & P3 & P4) (Q1 & Q2 & Q3 & Q4).
    destruct missing_index as (m & Hm & Hni & Pm).
    assert (LP : forall i, (i < n)%N -> length (nth (N.to_nat i) P []) = L).
    { intros i Hi. rewrite Forall_forall in P2. apply P2, nth_In. lia. }
    assert (LQ : forall i, (i < n)%N -> length (nth (N.to_nat i) Q []) = L).
    { intros i Hi. rewrite Forall_forall in Q2. apply Q2, nth_In. lia. }
    assert (HP : bx (nth (N.to_nat m) P []) (xorl L obs) = key).
    { rewrite <- P3, <- (xorl_perm L _ _ (perm_nth_all P _ P1 Pm)). simpl. now rewrite P4. }
    assert (HQ : bx (nth (N.to_nat m) Q []) (xorl L obs) = key).
    { rewrite <- Q3, <- (xorl_perm L _ _ (perm_nth_all Q _ Q1 Pm)). simpl. now rewrite Q4. }
    assert (Em : nth (N.to_nat m) P [] = nth (N.to_nat m) Q []).
    { apply (bx_inj (xorl L obs) _ _ L); auto using xorl_length.
      rewrite (bx_comm _ (nth (N.to_nat m) P [])), (bx_comm _ (nth (N.to_nat m) Q [])). congruence. }
    apply (list_ext []); [lia|]. intros i Hi.
    assert (Hin : In (N.of_nat i) (m :: idxs)).
    { apply Permutation_sym in Pm. apply (Permutation_in _ Pm). apply in_map_iff. exists i. split; auto.
      apply in_seq. lia. }
    destruct Hin as [Hin|Hin].
    - subst m. rewrite Nat2N.id in Em. exact Em.
    - rewrite <- Q4 in P4. apply (ext_in_map P4) in Hin. rewrite Nat2N.id in Hin. exact Hin.
  Qed.

  Lemma parts_of_good r : xshows r -> good (parts_of r).
  Proof.
    intros H. apply xshows_iff in H. pose proof (rows_lengths r L k) as RL.
    pose proof (xorl_length _ _ RL) as XL.
    assert (LB : length (bx key (xorl L (rows r L k))) = L) by now apply bx_length.
    unfold parts_of in *. repeat split; auto.
    - rewrite app_length, rows_length. simpl. unfold k. lia.
    - apply Forall_app; auto.
    - rewrite xorl_app; auto. simpl. rewrite bx_zeros_r by auto. rewrite (bx_comm key).
      apply bx_cancel. auto.
  Qed.

  Lemma good_exists : exists P, good P.
  Proof.
    destruct missing_index as (m & Hm & Hni & Pm).
    set (pm := bx key (xorl L obs)).
    assert (XO : length (xorl L obs) = L) by now apply xorl_length.
    assert (Lpm : length pm = L) by now apply bx_length.
    set (P := map (fun i => assoc_obs (combine idxs obs) (N.of_nat i) pm) (seq 0 (N.to_nat n))).
    assert (LP : length P = N.to_nat n) by (unfold P; now rewrite map_length, seq_length).
    assert (NP : forall i, (i < n)%N -> nth (N.to_nat i) P [] = assoc_obs (combine idxs obs) i pm).
    { intros i Hi. unfold P. rewrite (nth_map_lt _ _ _ 0) by (rewrite seq_length; lia).
      rewrite seq_nth by lia. simpl. now rewrite N2Nat.id. }
    assert (CF : map fst (combine idxs obs) = idxs).
    { clear - Hobs. revert obs Hobs. induction idxs as [|i l IH]; intros [|o os] H; simpl in *; auto; try lia.
      f_equal. apply IH. lia. }
    assert (SH : map (fun i => nth (N.to_nat i) P []) idxs = obs).
    { transitivity (map (fun i => assoc_obs (combine idxs obs) i pm) idxs).
      { apply map_ext_in. intros i Hi. apply NP. rewrite Forall_forall in Hidx. auto. }
      now apply assoc_combine. }
    assert (NM : nth (N.to_nat m) P [] = pm).
    { rewrite NP by auto. destruct (assoc_obs_in (combine idxs obs) m pm) as [(o & A & B)|(A & B)]; auto.
      exfalso. apply Hni. rewrite <- CF. apply in_map_iff. exists (m, o). auto. }
    exists P. repeat split; auto.
    - apply Forall_map, Forall_forall. intros i _.
      destruct (assoc_obs_in (combine idxs obs) (N.of_nat i) pm) as [(o & A & B)|(A & B)]; rewrite B; auto.
      apply in_combine_r in A. rewrite Forall_forall in HobsL. auto.
    - rewrite <- (xorl_perm L _ _ (perm_nth_all P _ LP Pm)). simpl. rewrite SH, NM. unfold pm.
      rewrite bx_assoc, bx_self, XO. apply bx_zeros_r. reflexivity.
  Qed.

  Lemma good_last P : good P -> P = firstn k P ++ [bx key (xorl L (firstn k P))].
  Proof.
    intros (P1 & P2 & P3 & P4).
    assert (LS : length (skipn k P) = 1) by (rewrite skipn_length; unfold k; lia).
    destruct (skipn k P) as [|x [|]] eqn:ES; try discriminate LS.
    pose proof (firstn_skipn k P) as FS. rewrite ES in FS.
    assert (P2' := P2). rewrite <- FS in P2'. apply Forall_app in P2'. destruct P2' as [F1 F2].
    assert (Lx : length x = L) by (inversion F2; auto).
    rewrite <- FS at 1. f_equal. f_equal.
    rewrite <- FS, xorl_app in P3; auto. simpl in P3. rewrite bx_zeros_r in P3 by auto.
    rewrite <- P3. rewrite (bx_comm _ x), bx_assoc, bx_self, (xorl_length _ _ F1), bx_zeros_r; auto.
  Qed.

  Lemma xor_secrecy_unique :
    exists! l, length l = k * L /\ forall r, rng_starts_with l r -> xshows r.
  Proof.
    destruct good_exists as (P & GP). pose proof GP as (P1 & P2 & P3 & P4).
    exists (matrix (fun m j => nth j (nth m P []) x00) k L).
    assert (RE : forall r, (forall m j, m < k -> j < L -> r (m * L + j) = nth j (nth m P []) x00) <-> rows r L k = firstn k P).
    { intros r.
      assert (LF : length (firstn k P) = k) by (rewrite firstn_length; unfold k; lia).
      assert (NF : forall m, m < k -> nth m (firstn k P) [] = nth m P []).
      { intros m Hm. rewrite <- (firstn_skipn k P) at 2. rewrite app_nth1 by lia. reflexivity. }
      assert (NL : forall m, m < k -> length (nth m P []) = L).
      { intros m Hm. rewrite Forall_forall in P2. apply P2, nth_In. unfold k in Hm. lia. }
      assert (NR : forall m, m < k -> nth m (rows r L k) [] = row r L m).
      { intros m Hm. unfold rows. rewrite (nth_map_lt _ _ _ 0) by now rewrite seq_length. now rewrite seq_nth. }
      split; intros H.
      - apply (list_ext []); [rewrite rows_length; lia|]. intros m Hm. rewrite rows_length in Hm.
        rewrite NF, NR by auto. rewrite <- (map_nth_seq (nth m P [])), NL by auto.
        unfold row. apply map_ext_in. intros j Hj. apply in_seq in Hj. apply H; lia.
      - intros m j Hm Hj. rewrite <- NF, <- H, NR by auto. unfold row. rewrite nth_map_seq; auto. }
    assert (SR : forall r, xshows r <-> rows r L k = firstn k P).
    { intros r. split; intros H.
      - apply parts_of_good in H. pose proof (good_unique _ _ H GP) as E.
        rewrite <- E. unfold parts_of.
        assert (LR : length (rows r L k) = k) by apply rows_length.
        rewrite <- LR at 2. symmetry. apply firstn_app_exact.
      - apply xshows_iff. unfold parts_of. rewrite H, <- good_last by exact GP. exact P4. }
    split.
    - split; [apply matrix_length|]. intros r Hr. apply SR, RE. intros m j Hm Hj.
      rewrite Hr by (rewrite matrix_length; nia). now apply matrix_nth.
    - intros l' [Hl' HS]. apply (matrix_ext _ _ k L); auto using matrix_length.
      intros m j Hm Hj. rewrite matrix_nth by assumption.
      set (r := fun i => nth i l' x00).
      assert (Hs : xshows r) by (apply HS; intros i Hi; reflexivity).
      apply SR in Hs. rewrite <- (proj2 (RE r) Hs m j Hm Hj). reflexivity.
  Qed.
End XorSecrecy.

(** ** Which splits are accepted *)

Lemma split_acceptance key n t r :
  (lenN key * n < two64)%N ->
  ((exists parts r', split_key_into_key_parts key n t r = Ok (parts, r') /\ lenN parts = n /\
                     Forall (fun s => length s = length key) parts)
   <-> (1 <= t /\ t <= n /\ lenN key * n < 16 * 1024 * 1024 /\ (t = 1 \/ t = n \/ n <= 255)))%N.
Proof.
  intros Hw. split.
  - intros (parts & r' & E & _). pose proof (split_ok_parts _ _ _ _ _ _ E) as ((A & B & _) & _ & C).
    rewrite split_cases in E by exact Hw.
    destruct (N.eqb_spec t 0); [lia|]. destruct (N.ltb_spec n t); [lia|].
    destruct (N.leb_spec MAX_HEADER_LEN (lenN key * n)) as [|M]; [discriminate|].
    unfold MAX_HEADER_LEN in M. repeat split; auto.
    destruct (N.eq_dec t 1), (N.eq_dec t n); auto.
  - intros (A & B & C & D).
    assert (exists parts r', split_key_into_key_parts key n t r = Ok (parts, r')) as (parts & r' & E).
    { rewrite split_cases by exact Hw.
      destruct (N.eqb_spec t 0); [lia|]. destruct (N.ltb_spec n t); [lia|].
      destruct (N.leb_spec MAX_HEADER_LEN (lenN key * n)) as [M|M]; [unfold MAX_HEADER_LEN in M; lia|].
      destruct (N.eqb_spec t 1); [eauto|]. destruct (N.eqb_spec t n).
      - destruct (xor_split_spec (N.to_nat n - 1) key r) as (r' & E & _). eauto.
      - destruct (create_closed_form key n t r) as (r' & E & _); [lia..|]. rewrite E. simpl. eauto. }
    exists parts, r'. split; [exact E|].
    destruct (split_ok_parts _ _ _ _ _ _ E) as ((_ & _ & H) & H' & _). auto.
Qed.

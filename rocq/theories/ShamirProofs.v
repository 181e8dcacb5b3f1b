(** Secret sharing: creation, recovery, secrecy. *)
From Coq Require Import List NArith Bool Lia Field PeanoNat Permutation Sorting.Sorted.
From Coq.Strings Require Import Byte.
From Verif Require Import Base BaseFacts Gf256 GfSpec GfProofs ShamirSpec PolyProofs Shamir.
Import ListNotations.

(** ** Creation in closed form *)

(** Random bytes number [m*L+j], m < k: the coefficients used at byte position [j]. *)
Definition col (r : rng) (L k j : nat) : bytes := map (fun m => r (m * L + j)) (seq 0 k).

Lemma col_S r L k j : col r L (S k) j = r j :: col (fun i => r (L + i)) L k j.
Proof.
  unfold col. cbn [seq map]. f_equal.
  rewrite <- seq_shift, map_map. apply map_ext. intros m. f_equal. lia.
Qed.

Lemma col_length r L k j : length (col r L k j) = k.
Proof. unfold col. now rewrite map_length, seq_length. Qed.

Definition view_after (r : rng) (L k : nat) (v : share_view) : share_view :=
  let '(x, xi, share) := v in
  (x, xi *# gf_pow x k,
   map (fun j => nth j share x00 +# (xi *# x) *# peval (col r L k j) x) (seq 0 L)).

Lemma map_nth_seq (s : bytes) : map (fun j => nth j s x00) (seq 0 (length s)) = s.
Proof.
  apply (list_ext x00).
  - now rewrite map_length, seq_length.
  - intros i Hi. rewrite map_length, seq_length in Hi.
    rewrite (nth_indep _ x00 (nth (length s) s x00)) by now rewrite map_length, seq_length.
    rewrite (map_nth (fun j => nth j s x00)). f_equal. now apply seq_nth.
Qed.

Lemma nth_map_seq (f : nat -> byte) L j d : j < L -> nth j (map f (seq 0 L)) d = f j.
Proof.
  intros. rewrite (nth_indep _ d (f L)) by now rewrite map_length, seq_length.
  rewrite map_nth. now rewrite seq_nth.
Qed.

Lemma share_loop_spec k L views r :
  Forall (fun v => length (snd v) = L) views ->
  exists r', share_loop k L views r = Ok (map (view_after r L k) views, r')
             /\ forall i, r' i = r (k * L + i).
Proof.
  revert views r; induction k as [|k IH]; intros views r HF.
  - exists r. split; [|reflexivity]. simpl. do 2 f_equal.
    rewrite <- (map_id views) at 1. apply map_ext_in. intros [[x xi] share] Hin.
    rewrite Forall_forall in HF. apply HF in Hin. simpl in Hin. simpl. f_equal.
    + f_equal. now rewrite gf_mul_1_r.
    + rewrite <- Hin. rewrite <- (map_nth_seq share) at 1. apply map_ext.
      intros j. rewrite gf_mul_0_r. symmetry. apply bxor_0_r.
  - cbn [share_loop rng_fill].
    set (row := map r (seq 0 L)).
    set (views1 := map (fun v : share_view => let '(x, xi, share) := v in
                          (x, xi *# x, map2 (fun c y => c +# y *# (xi *# x)) share row)) views).
    assert (Hm : map_out (add_random_row row) views = Ok views1).
    { apply map_out_ok. unfold views1. clear views1 IH.
      induction HF as [|[[x xi] share] views Hs HF IHF]; simpl; constructor; auto.
      unfold add_random_row, gf_add_mul_slice, row. rewrite map_length, seq_length.
      simpl in Hs. rewrite Hs, Nat.eqb_refl. reflexivity. }
    rewrite Hm. cbn [bind].
    destruct (IH views1 (fun i => r (L + i))) as (r' & HE & Hr').
    { unfold views1. clear - HF. induction HF as [|[[x xi] share] views Hs HF IHF]; simpl; constructor; auto.
      simpl. unfold row. rewrite map2_length, map_length, seq_length. simpl in Hs. lia. }
    exists r'. split.
    + rewrite HE. do 2 f_equal. unfold views1. rewrite map_map.
      apply map_ext_in. intros [[x xi] share] Hin.
      rewrite Forall_forall in HF. apply HF in Hin. simpl in Hin.
      cbn [view_after gf_pow]. f_equal.
      * f_equal. ring.
      * apply map_ext_in. intros j Hj. apply in_seq in Hj.
        rewrite (nth_map2 _ _ _ _ x00 x00)
          by (unfold row; rewrite ?map_length, ?seq_length; lia).
        unfold row. rewrite nth_map_seq by lia. rewrite col_S. cbn [peval]. ring.
    + intros i. rewrite Hr'. f_equal. lia.
Qed.

(** The polynomial used at byte position [j]. *)
Definition share_poly (secret : bytes) (r : rng) (t j : nat) : bytes :=
  nth j secret x00 :: col r (length secret) (t - 1) j.

Definition share_at (secret : bytes) (r : rng) (t i : nat) : bytes :=
  map (fun j => peval (share_poly secret r t j) (n2b (N.of_nat i + 1))) (seq 0 (length secret)).

Lemma create_closed_form secret n t r :
  (1 <= t -> t <= n -> n <= 255 ->
   exists r', create_secret_shares secret n t r
     = Ok (map (share_at secret r (N.to_nat t)) (seq 0 (N.to_nat n)), r')
     /\ forall i, r' i = r ((N.to_nat t - 1) * length secret + i)%nat)%N.
Proof.
  intros H1 H2 H3. unfold create_secret_shares, MAX_SHARES.
  destruct (N.eqb_spec t 0); [lia|].
  destruct (N.ltb_spec n t); [lia|].
  destruct (N.ltb_spec 255 n); [lia|].
  set (views := map _ _).
  destruct (share_loop_spec (N.to_nat t - 1) (length secret) views r) as (r' & HE & Hr').
  { unfold views. apply Forall_map. apply Forall_forall. reflexivity. }
  rewrite HE. cbn [bind]. exists r'. split; auto.
  do 2 f_equal. unfold views. rewrite !map_map. apply map_ext. intros i.
  cbn [view_after]. unfold share_at. apply map_ext. intros j.
  unfold share_poly. cbn [peval]. unfold gf_one. rewrite gf_mul_1_l. reflexivity.
Qed.

(** ** Recovery *)

Lemma gf_inv_mul a b : a <> x00 -> b <> x00 -> gf_inv (a *# b) = gf_inv a *# gf_inv b.
Proof. intros. field. auto. Qed.

Lemma lagrange_at_zero_spec ui acc pts :
  lagrange_at_zero ui acc pts
  = Ok (acc *# (gf_inv (peval (prod_lin (others ui pts)) ui) *# peval (prod_lin (others ui pts)) x00)).
Proof.
  revert acc; induction pts as [|uj pts IH]; intros acc.
  - simpl. f_equal. rewrite !gf_mul_0_r. unfold gf_add. rewrite !bxor_0_r.
    change (gf_inv x01) with x01. now rewrite !gf_mul_1_r.
  - cbn [lagrange_at_zero others filter]. fold (others ui pts).
    destruct (beqb uj ui) eqn:E; cbn [negb]; [apply IH|].
    apply beqb_neq in E.
    assert (Hne : uj -# ui <> x00) by (rewrite gf_sub_zero; auto).
    rewrite gf_div_quot by assumption. cbn [bind]. rewrite IH. f_equal.
    cbn [prod_lin fold_right]. fold (prod_lin (others ui pts)). rewrite !peval_mul_lin.
    assert (HP : peval (prod_lin (others ui pts)) ui <> x00).
    { apply peval_prod_lin_nonroot. rewrite in_others. tauto. }
    assert (Hs : ui -# uj = uj -# ui) by (unfold gf_sub; apply bxor_comm).
    assert (Hz : x00 -# uj = uj) by (unfold gf_sub; apply bxor_0_l).
    rewrite Hs, Hz, gf_inv_mul by assumption. unfold gf_quot. ring.
Qed.

Lemma lagrange_weight ui all :
  lagrange_at_zero ui gf_one all = Ok (weight ui all).
Proof.
  rewrite lagrange_at_zero_spec. f_equal. unfold weight, basis. rewrite peval_pscale.
  apply gf_mul_1_l.
Qed.

Lemma interpolate_spec all (pts : list (byte * bytes)) secret :
  Forall (fun p => length (snd p) = length secret) pts ->
  interpolate all pts secret
  = Ok (map (fun j => nth j secret x00
                      +# weighted_sum all (map (fun p => (fst p, nth j (snd p) x00)) pts))
            (seq 0 (length secret))).
Proof.
  revert secret; induction pts as [|[u s] pts IH]; intros secret HF.
  - simpl. f_equal. rewrite <- (map_nth_seq secret) at 1. apply map_ext. intros j.
    symmetry. apply bxor_0_r.
  - inversion HF; subst. simpl in H1. cbn [interpolate].
    rewrite lagrange_weight. cbn [bind]. unfold gf_add_mul_slice.
    rewrite H1, Nat.eqb_refl. cbn [assert bind].
    rewrite IH.
    + f_equal. rewrite map2_length, H1, Nat.min_id.
      apply map_ext_in. intros j Hj. apply in_seq in Hj.
      rewrite (nth_map2 _ _ _ _ x00 x00) by lia.
      cbn [map weighted_sum fst snd]. ring.
    + rewrite map2_length, H1, Nat.min_id. exact H2.
Qed.

(** Sorting and deduplication detect repeated indices. *)

Lemma insert_sorted_perm x l : Permutation (x :: l) (insert_sorted x l).
Proof.
  induction l as [|y l IH]; simpl; auto.
  destruct (N.leb x y); auto.
  etransitivity; [apply perm_swap|]. now constructor.
Qed.

Lemma sort_indices_perm l : Permutation l (sort_indices l).
Proof.
  induction l as [|x l IH]; simpl; auto.
  etransitivity; [apply perm_skip, IH|]. apply insert_sorted_perm.
Qed.

Lemma insert_sorted_sorted x l :
  StronglySorted N.le l -> StronglySorted N.le (insert_sorted x l).
Proof.
  induction 1 as [|y l Hs IH Hf]; simpl.
  - constructor; constructor.
  - destruct (N.leb_spec x y).
    + constructor; [now constructor|]. constructor; auto.
      eapply Forall_impl; [|exact Hf]. intros; simpl in *; lia.
    + constructor; auto.
      eapply Permutation_Forall; [apply insert_sorted_perm|].
      constructor; auto. lia.
Qed.

Lemma sort_indices_sorted l : StronglySorted N.le (sort_indices l).
Proof. induction l; simpl; [constructor|]. now apply insert_sorted_sorted. Qed.

Lemma dedup_incl l : incl (dedup l) l.
Proof.
  induction l as [|x l IH]; simpl; [apply incl_refl|].
  destruct l as [|y l]; [apply incl_refl|].
  destruct (N.eqb x y).
  - now apply incl_tl.
  - apply incl_cons; [now left|]. now apply incl_tl.
Qed.

Lemma dedup_nodup l : StronglySorted N.le l -> NoDup (dedup l).
Proof.
  induction 1 as [|x l Hs IH Hf]; simpl; [constructor|].
  destruct l as [|y l]; [constructor; auto; constructor|].
  destruct (N.eqb_spec x y); auto.
  constructor; auto. intros Hin. apply dedup_incl in Hin.
  inversion Hs; subst. inversion Hf; subst. rewrite Forall_forall in H2.
  destruct Hin as [->|Hin]; [congruence|]. apply H2 in Hin. lia.
Qed.

Lemma dedup_id l : NoDup l -> dedup l = l.
Proof.
  induction 1 as [|x l Hx ND IH]; auto. simpl. destruct l as [|y l]; auto.
  destruct (N.eqb_spec x y).
  - subst. exfalso. apply Hx. now left.
  - now rewrite IH.
Qed.

Lemma dedup_sort_length l :
  length (dedup (sort_indices l)) = length l <-> NoDup l.
Proof.
  pose proof (sort_indices_perm l) as HP. split; intros H.
  - apply (@NoDup_incl_NoDup N (dedup (sort_indices l))).
    + apply dedup_nodup, sort_indices_sorted.
    + lia.
    + intros z Hz. apply dedup_incl in Hz. eapply Permutation_in; [|exact Hz]. now symmetry.
  - rewrite dedup_id.
    + symmetry. now apply Permutation_length.
    + eapply Permutation_NoDup; eauto.
Qed.

(** Points obtained from a list of shares. *)
Definition idx_ok (s : N * bytes) : Prop := (wrap64 (fst s + 1) < 256)%N.

Definition to_point (s : N * bytes) : byte * bytes := (n2b (wrap64 (fst s + 1)), snd s).

Lemma share_points_ok shares :
  Forall idx_ok shares -> map_out share_point shares = Ok (map to_point shares).
Proof.
  intros HF. apply map_out_ok.
  induction HF as [|[i s] l Hi HF IH]; simpl; constructor; auto.
  unfold share_point, to_point. unfold idx_ok in Hi. simpl in *.
  destruct (N.ltb_spec (wrap64 (i + 1)) 256); [reflexivity|lia].
Qed.

Lemma share_points_err shares :
  ~ Forall idx_ok shares ->
  exists s, In s shares /\ ~ idx_ok s /\
    map_out share_point shares = Err (ShareIndexTooLarge (fst s) MAX_SHARES).
Proof.
  induction shares as [|[i s] l IH]; intros H; [exfalso; apply H; constructor|].
  simpl. destruct (N.ltb_spec (wrap64 (i + 1)) 256) as [Hi|Hi].
  - destruct IH as (s' & Hin & Hn & HE).
    + intros HF. apply H. constructor; auto.
    + exists s'. simpl. rewrite HE. auto.
  - exists (i, s). simpl. unfold idx_ok. simpl. split; auto. split; [lia|reflexivity].
Qed.

Lemma idx_ok_dec s : {idx_ok s} + {~ idx_ok s}.
Proof. unfold idx_ok. destruct (N.ltb (wrap64 (fst s + 1)) 256) eqn:E; [left|right]; [apply N.ltb_lt in E|apply N.ltb_ge in E]; lia. Qed.

(** The general shape of a recovery run. *)
Inductive recover_case (shares : list (N * bytes)) (t : N) : outcome share_error bytes -> Prop :=
| rc_zero : t = 0%N -> recover_case shares t (Err ZeroThreshold)
| rc_dup : t <> 0%N -> ~ NoDup (map fst shares) -> recover_case shares t (Err SharesWithSameIndices)
| rc_few : t <> 0%N -> NoDup (map fst shares) -> (lenN shares < t)%N ->
           recover_case shares t (Err (NotEnoughShares (lenN shares) t))
| rc_idx s : t <> 0%N -> NoDup (map fst shares) -> (t <= lenN shares)%N ->
           In s (firstn (N.to_nat t) shares) -> ~ idx_ok s ->
           recover_case shares t (Err (ShareIndexTooLarge (fst s) MAX_SHARES))
| rc_len s s' : t <> 0%N -> NoDup (map fst shares) -> (t <= lenN shares)%N ->
           Forall idx_ok (firstn (N.to_nat t) shares) ->
           In s (firstn (N.to_nat t) shares) -> In s' (firstn (N.to_nat t) shares) ->
           length (snd s) <> length (snd s') ->
           recover_case shares t (Err DifferentLengthShares)
| rc_ok L : t <> 0%N -> NoDup (map fst shares) -> (t <= lenN shares)%N ->
           Forall idx_ok (firstn (N.to_nat t) shares) ->
           Forall (fun s => length (snd s) = L) (firstn (N.to_nat t) shares) ->
           recover_case shares t
             (Ok (map (fun j =>
                weighted_sum (map fst (map to_point (firstn (N.to_nat t) shares)))
                  (map (fun s => (fst (to_point s), nth j (snd s) x00)) (firstn (N.to_nat t) shares)))
              (seq 0 L))).

Lemma recover_shape shares t : recover_case shares t (recover_secret shares t).
Proof.
  unfold recover_secret.
  destruct (N.eqb_spec t 0) as [|Ht]; [now apply rc_zero|].
  destruct (Nat.eqb_spec (length (dedup (sort_indices (map fst shares)))) (length shares)) as [HL|HL]; simpl.
  2:{ apply rc_dup; auto. intros ND. apply HL. rewrite <- (map_length fst shares).
      now apply dedup_sort_length. }
  assert (ND : NoDup (map fst shares)).
  { apply dedup_sort_length. now rewrite map_length. }
  destruct (N.ltb_spec (lenN shares) t) as [Hf|Hf]; [now apply rc_few|].
  set (sel := firstn (N.to_nat t) shares).
  destruct (Forall_dec idx_ok idx_ok_dec sel) as [HI|HI].
  2:{ destruct (share_points_err _ HI) as (s & Hin & Hn & ->). simpl. eapply rc_idx; eauto. }
  rewrite share_points_ok by assumption. cbn [bind].
  assert (Hne : length sel = N.to_nat t).
  { unfold sel. rewrite firstn_length. unfold lenN in Hf. lia. }
  destruct sel as [|s0 sel'] eqn:Esel; [simpl in Hne; lia|].
  cbn [map]. unfold to_point at 1. rewrite <- Esel in *.
  destruct (existsb _ (_ :: map to_point sel')) eqn:EX.
  - apply existsb_exists in EX as (p & Hp & Hd).
    apply negb_true_iff, Nat.eqb_neq in Hd.
    assert (Hp' : In p (map to_point sel)) by (rewrite Esel; exact Hp).
    apply in_map_iff in Hp' as (s & <- & Hs).
    eapply (rc_len _ _ s s0); auto.
    + fold sel. rewrite Esel. now left.
  - change (to_point s0 :: map to_point sel') with (map to_point (s0 :: sel')).
    change (fst (to_point s0) :: map fst (map to_point sel'))
      with (map fst (map to_point (s0 :: sel'))).
    rewrite <- Esel.
    assert (HLs : Forall (fun s => length (snd s) = length (snd s0)) sel).
    { apply Forall_forall. intros s Hs.
      destruct (Nat.eqb_spec (length (snd s)) (length (snd s0))) as [|Hd]; auto.
      exfalso. rewrite <- not_true_iff_false in EX. apply EX. apply existsb_exists.
      exists (to_point s). split.
      - change (_ :: map to_point sel') with (map to_point (s0 :: sel')). rewrite <- Esel.
        now apply in_map.
      - simpl. apply negb_true_iff. now apply Nat.eqb_neq. }
    rewrite interpolate_spec.
    + rewrite repeat_length.
      erewrite map_ext_in.
      * apply rc_ok; eauto.
      * intros j Hj. apply in_seq in Hj. rewrite repeat_nth by lia.
        unfold gf_add. rewrite bxor_0_l. rewrite (map_map to_point (fun p => (fst p, nth j (snd p) x00))). reflexivity.
    + apply Forall_map. rewrite repeat_length. exact HLs.
Qed.

(** ** Main theorems *)

Lemma recover_from_shares secret n t r idxs :
  (1 <= t -> t <= n -> n <= 255 ->
   NoDup idxs -> Forall (fun i => i < n) idxs -> t <= lenN idxs ->
   exists shares r',
     create_secret_shares secret n t r = Ok (shares, r') /\
     length shares = N.to_nat n /\
     Forall (fun s => length s = length secret) shares /\
     recover_secret (map (fun i => (i, nth (N.to_nat i) shares [])) idxs) t = Ok secret)%N.
Proof.
  intros H1 H2 H3 ND HF HL.
  destruct (create_closed_form secret n t r H1 H2 H3) as (r' & HC & _).
  eexists _, r'. split; [exact HC|].
  rewrite map_length, seq_length. split; [reflexivity|]. split.
  { apply Forall_map, Forall_forall. intros i _. unfold share_at.
    now rewrite map_length, seq_length. }
  set (sh := map (share_at secret r (N.to_nat t)) (seq 0 (N.to_nat n))).
  set (given := map _ idxs).
  assert (Hg : forall s, In s given -> exists i, s = (i, share_at secret r (N.to_nat t) (N.to_nat i)) /\ In i idxs /\ (i < n)%N).
  { intros s Hs. unfold given in Hs. apply in_map_iff in Hs as (i & <- & Hi).
    rewrite Forall_forall in HF. pose proof (HF i Hi). exists i. split; auto. f_equal.
    unfold sh. rewrite (nth_indep _ [] (share_at secret r (N.to_nat t) 0))
      by (rewrite map_length, seq_length; lia).
    rewrite map_nth. rewrite seq_nth by lia. reflexivity. }
  assert (Hfst : map fst given = idxs).
  { unfold given. rewrite map_map. simpl. apply map_id. }
  set (sel := firstn (N.to_nat t) given).
  assert (Hsel : forall s, In s sel -> In s given).
  { intros s Hs. unfold sel in Hs. rewrite <- (firstn_skipn (N.to_nat t) given).
    apply in_or_app. now left. }
  assert (Hsmall : forall i, (i < n -> wrap64 (i + 1) = i + 1)%N).
  { intros i Hi. unfold wrap64, two64. apply N.mod_small. lia. }
  assert (HIok : Forall idx_ok sel).
  { apply Forall_forall. intros s Hs. destruct (Hg s (Hsel s Hs)) as (i & -> & _ & Hi).
    unfold idx_ok. simpl. rewrite Hsmall by assumption. lia. }
  destruct (recover_shape given t) as [Hz|Hz HN|Hz HN Hlt|s Hz HN Hle Hin Hno|s s' Hz HN Hle HI Hin Hin' Hlen|L Hz HN Hle HI HLen].
  - lia.
  - rewrite Hfst in HN. contradiction.
  - exfalso. unfold lenN, given in Hlt. rewrite map_length in Hlt. unfold lenN in HL. lia.
  - rewrite Forall_forall in HIok. fold sel in Hin. apply HIok in Hin. contradiction.
  - exfalso. fold sel in Hin, Hin'.
    destruct (Hg s (Hsel s Hin)) as (i & -> & _). destruct (Hg s' (Hsel s' Hin')) as (i' & -> & _).
    apply Hlen. simpl. unfold share_at. now rewrite !map_length.
  - fold sel in HI, HLen |- *.
    assert (Hlen_sel : length sel = N.to_nat t).
    { unfold sel. rewrite firstn_length. unfold lenN in Hle. lia. }
    assert (HLe : L = length secret).
    { destruct sel as [|s0 sel'] eqn:Es; [simpl in Hlen_sel; lia|].
      inversion HLen as [|? ? HL0 _]. destruct (Hg s0) as (i & Hi & _).
      - apply Hsel. now left.
      - rewrite <- HL0, Hi. simpl. unfold share_at. now rewrite map_length, seq_length. }
    subst L. f_equal. rewrite <- (map_nth_seq secret) at 2.
    apply map_ext_in. intros j Hj. apply in_seq in Hj.
    set (xs := map fst (map to_point sel)).
    set (p := share_poly secret r (N.to_nat t) j).
    replace (map (fun s => (fst (to_point s), nth j (snd s) x00)) sel)
      with (map (fun x => (x, peval p x)) xs).
    + rewrite lagrange_zero.
      * rewrite peval_0. reflexivity.
      * unfold xs. rewrite map_map.
        assert (NDs : NoDup (map fst sel)).
        { unfold sel. rewrite <- firstn_map, Hfst.
          rewrite <- (firstn_skipn (N.to_nat t) idxs) in ND. now apply NoDup_app_l in ND. }
        clearbody sel. clear - NDs Hsel Hg Hsmall H3.
        induction sel as [|s sel IH]; simpl; [constructor|].
        simpl in NDs. inversion NDs; subst. constructor.
        -- intros Hin. apply in_map_iff in Hin as (s' & He & Hs').
           apply H1. apply in_map_iff. exists s'. split; auto.
           destruct (Hg s) as (i & -> & _ & Hi); [apply Hsel; now left|].
           destruct (Hg s') as (i' & -> & _ & Hi'); [apply Hsel; now right|].
           simpl in *. rewrite !Hsmall in He by assumption.
           apply (f_equal b2n) in He. rewrite !b2n_n2b_small in He by lia. lia.
        -- apply IH; auto. intros z Hz. apply Hsel. now right.
      * unfold p, share_poly, xs. simpl. rewrite col_length, !map_length, Hlen_sel. lia.
    + unfold xs. rewrite !map_map. apply map_ext_in. intros s Hs.
      destruct (Hg s (Hsel s Hs)) as (i & -> & _ & Hi). simpl. f_equal.
      rewrite Hsmall by assumption. unfold share_at. rewrite nth_map_seq by lia.
      rewrite N2Nat.id. reflexivity.
Qed.

(** Error behaviour. *)
Lemma create_errors secret n t r :
  create_secret_shares secret n t r <> Panic /\
  ((exists v, create_secret_shares secret n t r = Ok v) <-> (1 <= t /\ t <= n /\ n <= 255)%N) /\
  (t = 0%N -> create_secret_shares secret n t r = Err ZeroThreshold) /\
  (t <> 0%N -> (n < t)%N -> create_secret_shares secret n t r = Err (NotEnoughShares n t)) /\
  (t <> 0%N -> (t <= n)%N -> (255 < n)%N -> create_secret_shares secret n t r = Err (TooManySharesRequested n 255)).
Proof.
  unfold create_secret_shares at 3 4 5, MAX_SHARES.
  repeat split; try (intros; lia).
  - destruct (N.eq_dec t 0); [subst; discriminate|].
    destruct (N.lt_ge_cases n t).
    { unfold create_secret_shares. rewrite (proj2 (N.eqb_neq _ _)) by assumption.
      rewrite (proj2 (N.ltb_lt _ _)) by assumption. discriminate. }
    destruct (N.lt_ge_cases 255 n).
    { unfold create_secret_shares, MAX_SHARES. rewrite (proj2 (N.eqb_neq _ _)) by assumption.
      rewrite (proj2 (N.ltb_ge _ _)) by assumption. rewrite (proj2 (N.ltb_lt 255 n)) by assumption. discriminate. }
    destruct (create_closed_form secret n t r) as (r' & -> & _); try lia. discriminate.
  - destruct H as [v H]. unfold create_secret_shares in H.
    destruct (N.eqb_spec t 0); [discriminate|lia].
  - destruct H as [v H]. unfold create_secret_shares in H.
    destruct (N.eqb_spec t 0); [discriminate|].
    destruct (N.ltb_spec n t); [discriminate|lia].
  - destruct H as [v H]. unfold create_secret_shares, MAX_SHARES in H.
    destruct (N.eqb_spec t 0); [discriminate|].
    destruct (N.ltb_spec n t); [discriminate|].
    destruct (N.ltb_spec 255 n); [discriminate|lia].
  - intros (Ha & Hb & Hc). destruct (create_closed_form secret n t r) as (r' & -> & _); eauto.
  - intros ->. reflexivity.
  - intros Ha Hb. rewrite (proj2 (N.eqb_neq _ _)) by assumption.
    now rewrite (proj2 (N.ltb_lt _ _)) by assumption.
  - intros Ha Hb Hc. rewrite (proj2 (N.eqb_neq _ _)) by assumption.
    rewrite (proj2 (N.ltb_ge _ _)) by assumption.
    now rewrite (proj2 (N.ltb_lt 255 n)) by assumption.
Qed.

Lemma recover_never_panics shares t : recover_secret shares t <> Panic.
Proof. destruct (recover_shape shares t); discriminate. Qed.

Lemma recover_ok_iff shares t :
  (exists s, recover_secret shares t = Ok s) <->
  (t <> 0)%N /\ NoDup (map fst shares) /\ (t <= lenN shares)%N /\
  Forall (fun s => wrap64 (fst s + 1) < 256)%N (firstn (N.to_nat t) shares) /\
  (forall s s', In s (firstn (N.to_nat t) shares) -> In s' (firstn (N.to_nat t) shares) ->
     length (snd s) = length (snd s')).
Proof.
  split.
  - intros [x H]. destruct (recover_shape shares t); try discriminate.
    repeat split; auto. intros s s' Hs Hs'. rewrite Forall_forall in H4.
    now rewrite (H4 s), (H4 s').
  - intros (Hz & ND & Hle & HI & HL).
    destruct (recover_shape shares t) as [?|?|? ? ?|s ? ? ? Hin Hno|s s' ? ? ? ? Hin Hin' Hlen|]; eauto; try contradiction; try lia.
    + rewrite Forall_forall in HI. apply HI in Hin. contradiction.
    + exfalso. apply Hlen. auto.
Qed.

Lemma recover_errors shares t e :
  recover_secret shares t = Err e ->
  match e with
  | ZeroThreshold => t = 0%N
  | SharesWithSameIndices => t <> 0%N /\ ~ NoDup (map fst shares)
  | NotEnoughShares n t' => n = lenN shares /\ t' = t /\ (n < t)%N /\ NoDup (map fst shares)
  | ShareIndexTooLarge i m =>
      m = 255%N /\ In i (map fst (firstn (N.to_nat t) shares)) /\ (256 <= wrap64 (i + 1))%N
  | DifferentLengthShares =>
      exists s s', In s (firstn (N.to_nat t) shares) /\ In s' (firstn (N.to_nat t) shares) /\
                   length (snd s) <> length (snd s')
  | TooManySharesRequested _ _ => False
  end.
Proof.
  intros H. destruct (recover_shape shares t); inversion H; subst; auto.
  - repeat split; auto.
    + now apply in_map.
    + unfold idx_ok in H4. lia.
  - eauto.
Qed.

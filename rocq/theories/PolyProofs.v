(** Polynomials over the byte field: root counting and Lagrange interpolation. *)
From Coq Require Import List NArith Bool Lia Field PeanoNat.
From Coq.Strings Require Import Byte.
From Verif Require Import Base BaseFacts Gf256 GfSpec GfProofs ShamirSpec.
Import ListNotations.

Notation "a +# b" := (gf_add a b) (at level 50, left associativity).
Notation "a *# b" := (gf_mul a b) (at level 40, left associativity).
Notation "a -# b" := (gf_sub a b) (at level 50, left associativity).

Fixpoint peval (p : bytes) (x : byte) : byte :=
  match p with [] => x00 | c :: p' => c +# x *# peval p' x end.

Lemma peval_poly_eval p x : peval p x = poly_eval p x.
Proof. induction p; simpl; auto. now rewrite IHp, gf_mul_is_aes_mul. Qed.

Fixpoint gf_pow (x : byte) (n : nat) : byte :=
  match n with O => x01 | S n => gf_pow x n *# x end.

Lemma peval_app p q x : peval (p ++ q) x = peval p x +# gf_pow x (length p) *# peval q x.
Proof.
  induction p as [|c p IH]; simpl.
  - unfold gf_add. rewrite bxor_0_l. now rewrite gf_mul_1_l.
  - rewrite IH. ring.
Qed.

Lemma peval_0 p : peval p x00 = hd x00 p.
Proof. destruct p; simpl; auto. rewrite gf_mul_0_l. apply bxor_0_r. Qed.

(** ** Arithmetic on coefficient lists *)

Fixpoint padd (p q : bytes) : bytes :=
  match p, q with
  | [], _ => q
  | _, [] => p
  | a :: p', b :: q' => (a +# b) :: padd p' q'
  end.

Definition pscale (a : byte) (p : bytes) : bytes := map (fun c => a *# c) p.

Definition mul_lin (a : byte) (p : bytes) : bytes := padd (x00 :: p) (pscale a p).

Lemma peval_padd p q x : peval (padd p q) x = peval p x +# peval q x.
Proof.
  revert q; induction p as [|a p IH]; destruct q as [|b q]; simpl; try ring.
  rewrite IH. ring.
Qed.

Lemma peval_pscale a p x : peval (pscale a p) x = a *# peval p x.
Proof. induction p as [|c p IH]; simpl; [ring|]. rewrite IH. ring. Qed.

Lemma peval_mul_lin a p x : peval (mul_lin a p) x = (x -# a) *# peval p x.
Proof. unfold mul_lin. rewrite peval_padd, peval_pscale. simpl.
  change (x -# a) with (x +# a). ring. Qed.

Lemma padd_length p q : length (padd p q) = Nat.max (length p) (length q).
Proof. revert q; induction p; destruct q; simpl; auto. Qed.

Lemma pscale_length a p : length (pscale a p) = length p.
Proof. apply map_length. Qed.

Lemma mul_lin_length a p : length (mul_lin a p) = S (length p).
Proof. unfold mul_lin. rewrite padd_length, pscale_length. simpl length. lia. Qed.

Definition prod_lin (xs : bytes) : bytes := fold_right mul_lin [x01] xs.

Lemma prod_lin_length xs : length (prod_lin xs) = S (length xs).
Proof. induction xs; simpl; auto. now rewrite mul_lin_length, IHxs. Qed.

Lemma peval_prod_lin_root xs x : In x xs -> peval (prod_lin xs) x = x00.
Proof.
  induction xs as [|a xs IH]; simpl; [tauto|].
  rewrite peval_mul_lin. intros [->|H].
  - replace (x -# x) with x00 by (symmetry; now apply gf_sub_zero). apply gf_mul_0_l.
  - rewrite IH by assumption. apply gf_mul_0_r.
Qed.

Lemma peval_prod_lin_nonroot xs x : ~ In x xs -> peval (prod_lin xs) x <> x00.
Proof.
  induction xs as [|a xs IH]; simpl; intros H.
  - rewrite gf_mul_0_r. unfold gf_add. rewrite bxor_0_r. discriminate.
  - rewrite peval_mul_lin. apply gf_mul_nonzero.
    + rewrite gf_sub_zero. intros ->. tauto.
    + apply IH. tauto.
Qed.

(** ** Root counting, by synthetic division *)

Fixpoint sdiv (a c : byte) (p : bytes) : bytes * byte :=
  match p with
  | [] => ([], c)
  | c' :: p' => let '(q, r) := sdiv a c' p' in (r :: q, c +# a *# r)
  end.

Lemma sdiv_spec a c p q r :
  sdiv a c p = (q, r) ->
  length q = length p /\ forall x, peval (c :: p) x = (x -# a) *# peval q x +# r.
Proof.
  revert c q r; induction p as [|c' p IH]; intros c q r H.
  - simpl in H. inversion H; subst. split; auto. intros x. simpl. ring.
  - cbn [sdiv] in H. destruct (sdiv a c' p) as [q' r'] eqn:E. inversion H; subst; clear H.
    destruct (IH _ _ _ E) as [HL HE]. split; [simpl; lia|].
    intros x. change (peval (c :: c' :: p) x) with (c +# x *# peval (c' :: p) x).
    rewrite HE. cbn [peval]. ring.
Qed.

Lemma sdiv_zero a c p q r :
  sdiv a c p = (q, r) -> r = x00 -> Forall (eq x00) q -> Forall (eq x00) (c :: p).
Proof.
  revert c q r; induction p as [|c' p IH]; intros c q r H Hr Hq.
  - simpl in H. inversion H; subst. constructor; auto.
  - cbn [sdiv] in H. destruct (sdiv a c' p) as [q' r'] eqn:E.
    assert (Hq1 : q = r' :: q') by congruence.
    assert (Hr1 : c +# a *# r' = x00) by congruence.
    rewrite Hq1 in Hq. inversion Hq as [|? ? Hr' Hq']. constructor.
    + rewrite <- Hr', gf_mul_0_r in Hr1. unfold gf_add in Hr1. now rewrite bxor_0_r in Hr1.
    + eapply IH; eauto.
Qed.

Lemma root_count p xs :
  NoDup xs -> length p <= length xs -> (forall x, In x xs -> peval p x = x00) ->
  Forall (eq x00) p.
Proof.
  revert p; induction xs as [|a xs IH]; intros p ND HL HR.
  - destruct p; simpl in HL; [constructor | lia].
  - destruct p as [|c p]; [constructor|].
    destruct (sdiv a c p) as [q r] eqn:E.
    destruct (sdiv_spec _ _ _ _ _ E) as [HLq HE].
    inversion ND; subst.
    assert (Hr : r = x00).
    { pose proof (HR a (or_introl eq_refl)) as Ha. rewrite HE in Ha.
      replace (a -# a) with x00 in Ha by (symmetry; now apply gf_sub_zero).
      rewrite gf_mul_0_l in Ha. unfold gf_add in Ha. now rewrite bxor_0_l in Ha. }
    eapply sdiv_zero; eauto. apply IH; auto.
    + simpl in HL. lia.
    + intros x Hx.
      pose proof (HR x (or_intror Hx)) as H0. rewrite HE, Hr in H0.
      unfold gf_add in H0. rewrite bxor_0_r in H0.
      apply gf_mul_eq_0 in H0 as [H0|]; auto.
      apply (proj1 (gf_sub_zero _ _)) in H0. exfalso. apply H1. rewrite <- H0. exact Hx.
Qed.

Lemma peval_zero p x : Forall (eq x00) p -> peval p x = x00.
Proof.
  induction 1; simpl; auto. subst. rewrite IHForall, gf_mul_0_r. reflexivity.
Qed.

Lemma padd_zero_eq p q : length p = length q -> Forall (eq x00) (padd p q) -> p = q.
Proof.
  revert q; induction p as [|a p IH]; destruct q as [|b q]; simpl; intros HL H; try lia; auto.
  inversion H; subst. f_equal.
  - symmetry in H2. change (a +# b) with (a -# b) in H2. now apply gf_sub_zero.
  - apply IH; auto.
Qed.

(** Two polynomials with at most [n] coefficients agreeing on [n] points are equal. *)
Lemma poly_unique p q xs :
  NoDup xs -> length p = length q -> length p <= length xs ->
  (forall x, In x xs -> peval p x = peval q x) -> p = q.
Proof.
  intros ND HL HLe HE. apply padd_zero_eq; auto.
  apply (root_count _ xs); auto.
  - rewrite padd_length. lia.
  - intros x Hx. rewrite peval_padd, HE by assumption. apply gf_add_cancel.
Qed.

(** ** Lagrange interpolation *)

Definition others (u : byte) (xs : bytes) : bytes := filter (fun v => negb (beqb v u)) xs.

Lemma in_others u v xs : In v (others u xs) <-> In v xs /\ v <> u.
Proof.
  unfold others. rewrite filter_In. split; intros [H1 H2]; split; auto.
  - apply negb_true_iff in H2. now apply beqb_neq.
  - apply negb_true_iff. now apply beqb_neq.
Qed.

Lemma others_not_in u xs : ~ In u xs -> others u xs = xs.
Proof.
  induction xs as [|a xs IH]; simpl; auto. intros H.
  assert (beqb a u = false) as -> by (apply beqb_neq; intros ->; tauto).
  simpl. f_equal. apply IH. tauto.
Qed.

Lemma others_length u xs : NoDup xs -> In u xs -> S (length (others u xs)) = length xs.
Proof.
  induction xs as [|a xs IH]; simpl; [tauto|]. intros ND [->|H].
  - rewrite beqb_refl. simpl. inversion ND; subst. now rewrite others_not_in.
  - inversion ND; subst.
    assert (beqb a u = false) as -> by (apply beqb_neq; intros ->; tauto).
    simpl. f_equal. apply IH; auto.
Qed.

(** Basis polynomial: 1 at [u], 0 at the other points of [xs]. *)
Definition basis (u : byte) (xs : bytes) : bytes :=
  pscale (gf_inv (peval (prod_lin (others u xs)) u)) (prod_lin (others u xs)).

Lemma basis_length u xs : NoDup xs -> In u xs -> length (basis u xs) = length xs.
Proof. intros. unfold basis. rewrite pscale_length, prod_lin_length. now apply others_length. Qed.

Lemma basis_same u xs : peval (basis u xs) u = x01.
Proof.
  unfold basis. rewrite peval_pscale. apply gf_inv_l.
  apply peval_prod_lin_nonroot. rewrite in_others. tauto.
Qed.

Lemma basis_other u v xs : In v xs -> v <> u -> peval (basis u xs) v = x00.
Proof.
  intros. unfold basis. rewrite peval_pscale, (peval_prod_lin_root _ v).
  - apply gf_mul_0_r.
  - apply in_others. auto.
Qed.

(** Sum of [y_i * basis_i] over the points [pts]. *)
Definition interp (all : bytes) (pts : list (byte * byte)) : bytes :=
  fold_right (fun '(u, y) acc => padd (pscale y (basis u all)) acc) [] pts.

Lemma interp_length all pts :
  NoDup all -> incl (map fst pts) all -> length (interp all pts) <= length all.
Proof.
  intros ND. induction pts as [|[u y] pts IH]; simpl; intros HI; [lia|].
  rewrite padd_length, pscale_length, basis_length; auto.
  - apply Nat.max_lub; [lia|]. apply IH. intros z Hz. apply HI. now right.
  - apply HI. now left.
Qed.

Lemma interp_length_eq all pts :
  NoDup all -> incl (map fst pts) all -> pts <> [] -> length (interp all pts) = length all.
Proof.
  intros ND HI HN. destruct pts as [|[u y] pts]; [congruence|].
  simpl. rewrite padd_length, pscale_length, basis_length; auto.
  - apply Nat.max_l. apply interp_length; auto. intros z Hz. apply HI. now right.
  - apply HI. now left.
Qed.

Lemma interp_eval_notin all pts x :
  In x all -> ~ In x (map fst pts) -> peval (interp all pts) x = x00.
Proof.
  intros Hx. induction pts as [|[u y] pts IH]; simpl; intros H; auto.
  rewrite peval_padd, peval_pscale, basis_other, IH, gf_mul_0_r; auto.
Qed.

Lemma interp_eval all pts x y :
  NoDup (map fst pts) -> incl (map fst pts) all -> In (x, y) pts ->
  peval (interp all pts) x = y.
Proof.
  induction pts as [|[u w] pts IH]; simpl; intros ND HI H; [tauto|].
  inversion ND; subst. rewrite peval_padd, peval_pscale.
  destruct H as [H|H].
  - inversion H; subst. rewrite basis_same, interp_eval_notin; auto.
    + rewrite gf_mul_1_r. apply bxor_0_r.
    + apply HI. now left.
  - rewrite basis_other.
    + rewrite gf_mul_0_r. unfold gf_add. rewrite bxor_0_l. apply IH; auto.
      intros z Hz. apply HI. now right.
    + apply HI. right. apply (in_map fst) in H. exact H.
    + intros ->. apply (in_map fst) in H. contradiction.
Qed.

(** The value at zero of the interpolating polynomial, as a weighted sum. *)
Definition weight (u : byte) (all : bytes) : byte := peval (basis u all) x00.

Fixpoint weighted_sum (all : bytes) (pts : list (byte * byte)) : byte :=
  match pts with [] => x00 | (u, y) :: pts => (y *# weight u all) +# weighted_sum all pts end.

Lemma interp_eval_zero all pts : peval (interp all pts) x00 = weighted_sum all pts.
Proof.
  induction pts as [|[u y] pts IH]; simpl; auto.
  now rewrite peval_padd, peval_pscale, IH.
Qed.

Lemma lagrange_zero p xs :
  NoDup xs -> length p <= length xs ->
  weighted_sum xs (map (fun x => (x, peval p x)) xs) = peval p x00.
Proof.
  intros ND HL. rewrite <- interp_eval_zero.
  set (pts := map (fun x => (x, peval p x)) xs).
  assert (Hf : map fst pts = xs).
  { unfold pts. rewrite map_map. simpl. apply map_id. }
  assert (HZ : Forall (eq x00) (padd (interp xs pts) p)).
  { apply (root_count _ xs); auto.
    - rewrite padd_length. apply Nat.max_lub; auto.
      apply interp_length; auto. rewrite Hf. apply incl_refl.
    - intros x Hx. rewrite peval_padd, (interp_eval xs pts x (peval p x)).
      + apply gf_add_cancel.
      + now rewrite Hf.
      + rewrite Hf. apply incl_refl.
      + unfold pts. apply in_map_iff. eauto. }
  apply (peval_zero _ x00) in HZ. rewrite peval_padd in HZ.
  change (_ +# _) with (peval (interp xs pts) x00 -# peval p x00) in HZ.
  now apply gf_sub_zero.
Qed.

(** GF(256): the tables of gf256.rs implement the field. *)
From Coq Require Import List NArith Bool Lia Field.
From Coq.Strings Require Import Byte.
From Verif Require Import Base BaseFacts Gf256 GfSpec.
Import ListNotations.
Local Open Scope N_scope.

(** ** Linearity of the specification *)

Lemma clmul_lxor a b c : clmul a (N.lxor b c) = N.lxor (clmul a b) (clmul a c).
Proof.
  unfold clmul.
  generalize (0 :: 1 :: 2 :: 3 :: 4 :: 5 :: 6 :: 7 :: nil).
  intros l; induction l as [|i l IH]; [reflexivity|].
  cbn [fold_right]. rewrite IH, N.lxor_spec.
  set (P := fold_right _ _ l). set (Q := fold_right _ _ l). clearbody P Q.
  destruct (N.testbit b i), (N.testbit c i); simpl xorb; cbv iota;
    apply N.bits_inj; intros k; rewrite !N.lxor_spec, ?N.bits_0;
    repeat match goal with |- context[N.testbit ?x ?y] => destruct (N.testbit x y) end; reflexivity.
Qed.

Lemma cancel_lxor u v i : cancel (N.lxor u v) i = N.lxor (cancel u i) (cancel v i).
Proof.
  unfold cancel. rewrite N.lxor_spec.
  destruct (N.testbit u i), (N.testbit v i); simpl xorb; cbv iota;
    apply N.bits_inj; intros k; rewrite !N.lxor_spec;
    repeat match goal with |- context[N.testbit ?x ?y] => destruct (N.testbit x y) end; reflexivity.
Qed.

Lemma poly_mod_lxor u v : poly_mod (N.lxor u v) = N.lxor (poly_mod u) (poly_mod v).
Proof.
  unfold poly_mod.
  generalize (14 :: 13 :: 12 :: 11 :: 10 :: 9 :: 8 :: nil). intros l.
  revert u v; induction l as [|i l IH]; intros u v; [reflexivity|].
  cbn [fold_left]. now rewrite cancel_lxor, IH.
Qed.

Lemma clmul_lxor_l a b c : clmul (N.lxor a b) c = N.lxor (clmul a c) (clmul b c).
Proof.
  unfold clmul.
  generalize (0 :: 1 :: 2 :: 3 :: 4 :: 5 :: 6 :: 7 :: nil).
  intros l; induction l as [|i l IH]; [reflexivity|].
  cbn [fold_right]. rewrite IH, N.shiftl_lxor.
  set (P := fold_right _ _ l). set (Q := fold_right _ _ l). clearbody P Q.
  destruct (N.testbit c i);
    apply N.bits_inj; intros k; rewrite !N.lxor_spec, ?N.bits_0;
    repeat match goal with |- context[N.testbit ?x ?y] => destruct (N.testbit x y) end; reflexivity.
Qed.

(** ** Additive functions are determined by the values on the eight single-bit bytes *)

Definition additive (f : byte -> byte) : Prop := forall a b, f (bxor a b) = bxor (f a) (f b).

Definition unit_bytes : list byte := [x01; x02; x04; x08; x10; x20; x40; x80].

Definition bit_part (b u : byte) : byte := if N.land (b2n b) (b2n u) =? 0 then x00 else u.

Lemma byte_decompose b :
  b = fold_right (fun u acc => bxor (bit_part b u) acc) x00 unit_bytes.
Proof. destruct b; reflexivity. Qed.

Lemma additive_zero f : additive f -> f x00 = x00.
Proof.
  intros H. specialize (H x00 x00). rewrite bxor_nilpotent in H.
  rewrite H at 1. apply bxor_nilpotent.
Qed.

Lemma additive_ext f g :
  additive f -> additive g -> (forall u, In u unit_bytes -> f u = g u) -> forall b, f b = g b.
Proof.
  intros Hf Hg HE b. rewrite (byte_decompose b).
  revert HE. generalize unit_bytes at 1 2 3. intros l HE.
  induction l as [|u l IH]; simpl.
  - now rewrite !additive_zero.
  - rewrite Hf, Hg, IH by (intros; apply HE; now right). f_equal.
    unfold bit_part. destruct (_ =? 0).
    + now rewrite !additive_zero.
    + apply HE. now left.
Qed.

Lemma aes_additive_r a : additive (aes_mul a).
Proof. intros b c. unfold aes_mul. now rewrite b2n_bxor, clmul_lxor, poly_mod_lxor, n2b_lxor. Qed.

Lemma aes_additive_l c : additive (fun a => aes_mul a c).
Proof. intros a b. unfold aes_mul. now rewrite b2n_bxor, clmul_lxor_l, poly_mod_lxor, n2b_lxor. Qed.

Lemma aes_mul_assoc a b c : aes_mul (aes_mul a b) c = aes_mul a (aes_mul b c).
Proof.
  assert (HB : forall u v w, In u unit_bytes -> In v unit_bytes -> In w unit_bytes ->
               aes_mul (aes_mul u v) w = aes_mul u (aes_mul v w)).
  { assert (HC : forallb (fun u => forallb (fun v => forallb (fun w =>
               beqb (aes_mul (aes_mul u v) w) (aes_mul u (aes_mul v w))) unit_bytes) unit_bytes) unit_bytes = true)
      by (vm_compute; reflexivity).
    intros u v w Hu Hv Hw. rewrite forallb_forall in HC. specialize (HC u Hu).
    rewrite forallb_forall in HC. specialize (HC v Hv).
    rewrite forallb_forall in HC. specialize (HC w Hw). now apply beqb_eq. }
  revert a. apply additive_ext.
  - intros a a'. now rewrite (aes_additive_l b), (aes_additive_l c).
  - apply aes_additive_l.
  - intros u Hu. revert b. apply additive_ext.
    + intros b b'. now rewrite aes_additive_r, (aes_additive_l c).
    + intros b b'. now rewrite (aes_additive_l c), aes_additive_r.
    + intros v Hv. revert c. apply additive_ext.
      * apply aes_additive_r.
      * intros c c'. now rewrite !aes_additive_r.
      * intros w Hw. now apply HB.
Qed.

(** ** Logarithms *)

Lemma gf_log_zero a : gf_log a = None <-> a = x00.
Proof.
  unfold gf_log. destruct (beqb a x00) eqn:E.
  - apply beqb_eq in E. tauto.
  - apply beqb_neq in E. split; [discriminate | contradiction].
Qed.

Definition log_ok (a : byte) : bool :=
  match gf_log a with
  | None => beqb a x00
  | Some l => (l <? 255) && beqb (gf_exp l) a
  end.

Lemma gf_log_spec a l : gf_log a = Some l -> l < 255 /\ gf_exp l = a.
Proof.
  intros H.
  assert (HH : log_ok a = true) by (revert a l H; intros a _ _; revert a; apply forall_bytes; vm_compute; reflexivity).
  unfold log_ok in HH. rewrite H in HH.
  apply andb_true_iff in HH as [H1 H2]. apply N.ltb_lt in H1. apply beqb_eq in H2. auto.
Qed.

Lemma gf_log_exp n : gf_log (gf_exp n) = Some (n mod 255).
Proof.
  assert (H : forall k, k < 255 -> gf_log (gf_exp k) = Some k).
  { intros k Hk.
    assert (HB : forallb (fun k => match gf_log (gf_exp k) with Some l => l =? k | None => false end)
                        (map N.of_nat (seq 0 255)) = true) by (vm_compute; reflexivity).
    rewrite forallb_forall in HB.
    specialize (HB k). rewrite in_map_iff in HB.
    assert (Hin : exists x, N.of_nat x = k /\ In x (seq 0 255)).
    { exists (N.to_nat k). split; [lia|]. apply in_seq. lia. }
    specialize (HB Hin). destruct (gf_log (gf_exp k)); [|discriminate].
    apply N.eqb_eq in HB. congruence. }
  rewrite <- (H (n mod 255)).
  - unfold gf_exp. now rewrite N.mod_mod by lia.
  - apply N.mod_lt; lia.
Qed.

Lemma gf_exp_mod n : gf_exp (n mod 255) = gf_exp n.
Proof. unfold gf_exp. now rewrite N.mod_mod by lia. Qed.

(** The exponential table lists the powers of the generator 3. *)
Lemma gf_exp_succ n : gf_exp (n + 1) = aes_mul x03 (gf_exp n).
Proof.
  assert (HB : forallb (fun k => beqb (gf_exp (k + 1)) (aes_mul x03 (gf_exp k)))
                       (map N.of_nat (seq 0 255)) = true) by (vm_compute; reflexivity).
  rewrite <- (gf_exp_mod (n + 1)), <- (gf_exp_mod n).
  rewrite <- N.add_mod_idemp_l by lia. rewrite gf_exp_mod.
  assert (Hk : n mod 255 < 255) by (apply N.mod_lt; lia).
  revert Hk. generalize (n mod 255). intros k Hk.
  rewrite forallb_forall in HB. apply beqb_eq. apply HB.
  apply in_map_iff. exists (N.to_nat k). split; [lia|]. apply in_seq. lia.
Qed.

Lemma aes_mul_1_l a : aes_mul x01 a = a.
Proof.
  revert a. apply additive_ext.
  - apply aes_additive_r.
  - intros a b. reflexivity.
  - intros u Hu. apply beqb_eq. revert u Hu. apply forallb_forall. vm_compute. reflexivity.
Qed.

Lemma gf_exp_add m n : gf_exp (m + n) = aes_mul (gf_exp m) (gf_exp n).
Proof.
  revert n. apply (N.peano_ind (fun m => forall n, gf_exp (m + n) = aes_mul (gf_exp m) (gf_exp n))).
  - intros n. rewrite N.add_0_l. change (gf_exp 0) with x01. now rewrite aes_mul_1_l.
  - clear m. intros m IH n. replace (N.succ m + n) with ((m + n) + 1) by lia.
    rewrite <- (N.add_1_r m). now rewrite !gf_exp_succ, IH, aes_mul_assoc.
Qed.

Lemma gf_mul_is_aes_mul : forall a b, gf_mul a b = aes_mul a b.
Proof.
  intros a b. unfold gf_mul.
  destruct (gf_log a) as [la|] eqn:Ea.
  - destruct (gf_log b) as [lb|] eqn:Eb.
    + apply gf_log_spec in Ea as [_ <-]. apply gf_log_spec in Eb as [_ <-]. apply gf_exp_add.
    + apply gf_log_zero in Eb. subst b. symmetry. exact (additive_zero _ (aes_additive_r a)).
  - apply gf_log_zero in Ea. subst a. symmetry. exact (additive_zero _ (aes_additive_l b)).
Qed.

Lemma gf_mul_comm a b : gf_mul a b = gf_mul b a.
Proof.
  unfold gf_mul. destruct (gf_log a), (gf_log b); auto. now rewrite N.add_comm.
Qed.

Lemma gf_distr_r a b c : gf_mul a (gf_add b c) = gf_add (gf_mul a b) (gf_mul a c).
Proof. rewrite !gf_mul_is_aes_mul. apply aes_additive_r. Qed.

Lemma gf_distr_l a b c : gf_mul (gf_add a b) c = gf_add (gf_mul a c) (gf_mul b c).
Proof. rewrite !(gf_mul_comm _ c). apply gf_distr_r. Qed.

Lemma gf_mul_assoc a b c : gf_mul a (gf_mul b c) = gf_mul (gf_mul a b) c.
Proof.
  unfold gf_mul at 2 4.
  destruct (gf_log a) as [la|] eqn:Ea, (gf_log b) as [lb|] eqn:Eb, (gf_log c) as [lc|] eqn:Ec;
    unfold gf_mul; rewrite ?Ea, ?Ec, ?gf_log_exp; try reflexivity.
  - rewrite <- (gf_exp_mod (la + _)), <- (gf_exp_mod (_ + lc)).
    rewrite N.add_mod_idemp_r, N.add_mod_idemp_l by lia.
    now rewrite N.add_assoc.
Qed.

Lemma gf_mul_0_l a : gf_mul x00 a = x00.
Proof. reflexivity. Qed.
Lemma gf_mul_0_r a : gf_mul a x00 = x00.
Proof. rewrite gf_mul_comm. reflexivity. Qed.
Lemma gf_mul_1_l a : gf_mul x01 a = a.
Proof. destruct a; reflexivity. Qed.
Lemma gf_mul_1_r a : gf_mul a x01 = a.
Proof. rewrite gf_mul_comm. apply gf_mul_1_l. Qed.

(** ** Division *)

(** Total inverse used for the field structure ([1/a], and 0 for 0). *)
Definition gf_inv (a : byte) : byte :=
  match gf_log a with None => x00 | Some l => gf_exp (255 - l) end.

Definition gf_quot (a b : byte) : byte := gf_mul a (gf_inv b).

Lemma gf_inv_l a : a <> x00 -> gf_mul (gf_inv a) a = x01.
Proof.
  intros H. apply beqb_eq.
  assert (HB : forall a, (beqb a x00 || beqb (gf_mul (gf_inv a) a) x01) = true)
    by (apply forall_bytes; vm_compute; reflexivity).
  specialize (HB a). apply orb_true_iff in HB as [HB|HB]; auto.
  apply beqb_eq in HB. contradiction.
Qed.

Lemma gf_div_quot {E} a b : b <> x00 -> @gf_div E a b = Ok (gf_quot a b).
Proof.
  intros H. unfold gf_div, gf_quot, gf_inv.
  destruct (gf_log b) as [lb|] eqn:Eb.
  2:{ apply gf_log_zero in Eb. contradiction. }
  apply gf_log_spec in Eb as [Hb _].
  destruct (gf_log a) as [la|] eqn:Ea.
  - unfold gf_mul. rewrite Ea, gf_log_exp.
    rewrite <- (gf_exp_mod (la + (_ mod _))), N.add_mod_idemp_r by lia.
    rewrite gf_exp_mod. do 2 f_equal. lia.
  - unfold gf_mul. rewrite Ea. reflexivity.
Qed.

Lemma gf_div_panic {E} a b : @gf_div E a b = Panic <-> b = x00.
Proof.
  split; intros H.
  - destruct (byte_eq_dec b x00) as [|n]; auto.
    rewrite gf_div_quot in H by assumption. discriminate.
  - subst. reflexivity.
Qed.

(** ** Field structure (for the [ring]/[field] tactics) *)

Lemma gf_field_theory :
  field_theory x00 x01 gf_add gf_mul gf_sub (fun a => a) gf_quot gf_inv eq.
Proof.
  constructor.
  - constructor.
    + exact bxor_0_l.
    + exact bxor_comm.
    + intros. symmetry. apply bxor_assoc.
    + exact gf_mul_1_l.
    + exact gf_mul_comm.
    + exact gf_mul_assoc.
    + exact gf_distr_l.
    + reflexivity.
    + exact bxor_nilpotent.
  - discriminate.
  - reflexivity.
  - exact gf_inv_l.
Qed.

Add Field gf_field : gf_field_theory.

Lemma gf_add_cancel a : gf_add a a = x00.
Proof. apply bxor_nilpotent. Qed.

Lemma gf_sub_zero a b : gf_sub a b = x00 <-> a = b.
Proof.
  unfold gf_sub. split; intros H.
  - apply (bxor_inj_l b). rewrite bxor_nilpotent, bxor_comm. exact H.
  - subst. apply bxor_nilpotent.
Qed.

Lemma gf_mul_eq_0 a b : gf_mul a b = x00 -> a = x00 \/ b = x00.
Proof.
  intros H. destruct (byte_eq_dec a x00) as [|Ha]; auto. right.
  rewrite <- (gf_mul_1_l b), <- (gf_inv_l a Ha), <- gf_mul_assoc, H. apply gf_mul_0_r.
Qed.

Lemma gf_mul_nonzero a b : a <> x00 -> b <> x00 -> gf_mul a b <> x00.
Proof. intros Ha Hb H. apply gf_mul_eq_0 in H. tauto. Qed.

Lemma gf_inv_nonzero a : a <> x00 -> gf_inv a <> x00.
Proof.
  intros Ha H. pose proof (gf_inv_l a Ha) as HI. rewrite H, gf_mul_0_l in HI. discriminate.
Qed.

Lemma gf_div_unique {E} a b c : b <> x00 -> (@gf_div E a b = Ok c <-> gf_mul c b = a).
Proof.
  intros Hb. rewrite gf_div_quot by assumption. unfold gf_quot. split; intros H.
  - inversion H; subst. rewrite <- gf_mul_assoc, gf_inv_l by assumption. apply gf_mul_1_r.
  - subst a. rewrite <- gf_mul_assoc, (gf_mul_comm b), gf_inv_l by assumption.
    now rewrite gf_mul_1_r.
Qed.

(** Elementary facts about the vocabulary of [Base]. *)
From Coq Require Import List NArith Bool Lia PeanoNat.
From Coq.Strings Require Import Byte.
From Verif Require Import Base.
Import ListNotations.

(** All 256 bytes, for exhaustive kernel computations. *)
Definition all_bytes : list byte :=
  map (fun n => n2b (N.of_nat n)) (seq 0 256).

Lemma n2b_b2n b : n2b (b2n b) = b.
Proof. destruct b; reflexivity. Qed.

Lemma b2n_bound b : (b2n b < 256)%N.
Proof.
  unfold b2n. pose proof (to_N_bounded b). lia.
Qed.

Lemma all_bytes_complete : forall b, In b all_bytes.
Proof.
  intros b. unfold all_bytes. apply in_map_iff. exists (N.to_nat (b2n b)). split.
  - rewrite N2Nat.id. apply n2b_b2n.
  - apply in_seq. pose proof (b2n_bound b). lia.
Qed.

Lemma forall_bytes (P : byte -> bool) :
  forallb P all_bytes = true -> forall b, P b = true.
Proof.
  intros H b. rewrite forallb_forall in H. apply H, all_bytes_complete.
Qed.

Lemma forall_bytes2 (P : byte -> byte -> bool) :
  forallb (fun a => forallb (P a) all_bytes) all_bytes = true ->
  forall a b, P a b = true.
Proof.
  intros H a b. apply (forall_bytes (P a)).
  exact (forall_bytes (fun a => forallb (P a) all_bytes) H a).
Qed.

Lemma beqb_eq a b : beqb a b = true <-> a = b.
Proof.
  unfold beqb. split.
  - apply byte_dec_bl.
  - apply byte_dec_lb.
Qed.

Lemma beqb_refl a : beqb a a = true.
Proof. now apply beqb_eq. Qed.

Lemma beqb_neq a b : beqb a b = false <-> a <> b.
Proof.
  split; intros H.
  - intros E. apply beqb_eq in E. congruence.
  - destruct (beqb a b) eqn:E; auto. apply beqb_eq in E. contradiction.
Qed.

Lemma byte_eq_dec (a b : byte) : {a = b} + {a <> b}.
Proof. destruct (beqb a b) eqn:E; [left; now apply beqb_eq | right; now apply beqb_neq]. Qed.

Lemma bytes_eqb_eq a b : bytes_eqb a b = true <-> a = b.
Proof.
  revert b; induction a as [|x a IH]; destruct b as [|y b]; simpl; split; intros H;
    try reflexivity; try discriminate.
  - apply andb_true_iff in H as [H1 H2]. apply beqb_eq in H1. apply IH in H2. congruence.
  - inversion H; subst. apply andb_true_iff. split; [apply beqb_refl | now apply IH].
Qed.

Lemma bytes_eqb_refl a : bytes_eqb a a = true.
Proof. now apply bytes_eqb_eq. Qed.

Lemma bytes_eqb_neq a b : bytes_eqb a b = false <-> a <> b.
Proof.
  split; intros H.
  - intros E. apply bytes_eqb_eq in E. congruence.
  - destruct (bytes_eqb a b) eqn:E; auto. apply bytes_eqb_eq in E. contradiction.
Qed.

Lemma bytes_eq_dec (a b : bytes) : {a = b} + {a <> b}.
Proof. destruct (bytes_eqb a b) eqn:E; [left; now apply bytes_eqb_eq | right; now apply bytes_eqb_neq]. Qed.

Lemma b2n_n2b n : b2n (n2b n) = (n mod 256)%N.
Proof.
  unfold b2n, n2b.
  destruct (of_N (n mod 256)) eqn:E.
  - now apply to_of_N.
  - apply of_N_None_iff in E.
    assert (n mod 256 < 256)%N by (apply N.mod_lt; lia). lia.
Qed.

Lemma b2n_n2b_small n : (n < 256)%N -> b2n (n2b n) = n.
Proof. intros. rewrite b2n_n2b. now apply N.mod_small. Qed.

Lemma b2n_inj a b : b2n a = b2n b -> a = b.
Proof. intros H. rewrite <- (n2b_b2n a), <- (n2b_b2n b). now rewrite H. Qed.

Lemma lxor_bound_256 a b : (a < 256 -> b < 256 -> N.lxor a b < 256)%N.
Proof.
  intros Ha Hb.
  destruct (N.eq_dec (N.lxor a b) 0) as [->|Hz]; [lia|].
  change 256%N with (2^8)%N.
  apply N.log2_lt_pow2; [lia|].
  eapply N.le_lt_trans; [apply N.log2_lxor|].
  apply N.max_lub_lt.
  - destruct (N.eq_dec a 0) as [->|]; [vm_compute; reflexivity|].
    apply N.log2_lt_pow2; [lia|]. exact Ha.
  - destruct (N.eq_dec b 0) as [->|]; [vm_compute; reflexivity|].
    apply N.log2_lt_pow2; [lia|]. exact Hb.
Qed.

Lemma b2n_bxor a b : b2n (bxor a b) = N.lxor (b2n a) (b2n b).
Proof.
  unfold bxor. apply b2n_n2b_small. apply lxor_bound_256; apply b2n_bound.
Qed.

Lemma bxor_comm a b : bxor a b = bxor b a.
Proof. apply b2n_inj. rewrite !b2n_bxor. apply N.lxor_comm. Qed.
Lemma bxor_assoc a b c : bxor (bxor a b) c = bxor a (bxor b c).
Proof. apply b2n_inj. rewrite !b2n_bxor. apply N.lxor_assoc. Qed.
Lemma bxor_0_l a : bxor x00 a = a.
Proof. apply b2n_inj. rewrite b2n_bxor. apply N.lxor_0_l. Qed.
Lemma bxor_0_r a : bxor a x00 = a.
Proof. apply b2n_inj. rewrite b2n_bxor. apply N.lxor_0_r. Qed.
Lemma bxor_nilpotent a : bxor a a = x00.
Proof. apply b2n_inj. rewrite b2n_bxor. apply N.lxor_nilpotent. Qed.
Lemma bxor_cancel_l a b : bxor a (bxor a b) = b.
Proof. now rewrite <- bxor_assoc, bxor_nilpotent, bxor_0_l. Qed.
Lemma bxor_cancel_r a b : bxor (bxor a b) b = a.
Proof. now rewrite bxor_assoc, bxor_nilpotent, bxor_0_r. Qed.
Lemma n2b_lxor u v : n2b (N.lxor u v) = bxor (n2b u) (n2b v).
Proof.
  apply b2n_inj. rewrite b2n_bxor, !b2n_n2b. change 256%N with (2 ^ 8)%N.
  rewrite <- !N.land_ones. apply N.bits_inj. intros k.
  rewrite !N.lxor_spec, !N.land_spec, N.lxor_spec.
  repeat match goal with |- context[N.testbit ?x ?y] => destruct (N.testbit x y) end; reflexivity.
Qed.
Lemma bxor_inj_l a b c : bxor a b = bxor a c -> b = c.
Proof. intros H. rewrite <- (bxor_cancel_l a b), H. apply bxor_cancel_l. Qed.

(** ** Lists *)

Lemma map2_length {A B C} (f : A -> B -> C) l k :
  length (map2 f l k) = Nat.min (length l) (length k).
Proof. revert k; induction l; destruct k; simpl; auto. Qed.

Lemma nth_map2 {A B C} (f : A -> B -> C) l k i da db dc :
  i < length l -> i < length k ->
  nth i (map2 f l k) dc = f (nth i l da) (nth i k db).
Proof.
  revert k i; induction l; destruct k, i; simpl; intros; try lia; auto.
  apply IHl; lia.
Qed.

Lemma firstn_length_le' {A} (l : list A) n : n <= length l -> length (firstn n l) = n.
Proof. intros. rewrite firstn_length. lia. Qed.

Lemma firstn_app_exact {A} (l k : list A) : firstn (length l) (l ++ k) = l.
Proof. rewrite firstn_app, Nat.sub_diag, firstn_all. simpl. apply app_nil_r. Qed.

Lemma skipn_app_exact {A} (l k : list A) : skipn (length l) (l ++ k) = k.
Proof. rewrite skipn_app, Nat.sub_diag, skipn_all. reflexivity. Qed.

Lemma list_ext {A} (d : A) (l k : list A) :
  length l = length k -> (forall i, i < length l -> nth i l d = nth i k d) -> l = k.
Proof.
  revert k; induction l; destruct k; simpl; intros HL H; try lia; auto.
  f_equal.
  - apply (H 0); lia.
  - apply IHl; [lia|]. intros i Hi. apply (H (S i)); lia.
Qed.

Lemma repeat_nth {A} (x d : A) n i : i < n -> nth i (repeat x n) d = x.
Proof. revert i; induction n; destruct i; simpl; intros; try lia; auto. apply IHn; lia. Qed.

(** ** Little-endian encodings *)

Lemma le_bytes_length k n : length (le_bytes k n) = k.
Proof. revert n; induction k; simpl; auto. Qed.

Lemma le_value_le_bytes k n : le_value (le_bytes k n) = (n mod 256 ^ N.of_nat k)%N.
Proof.
  revert n; induction k; intros n.
  - simpl. now rewrite N.mod_1_r.
  - cbn [le_bytes le_value].
    rewrite IHk, b2n_n2b, N.mod_mod by lia.
    rewrite Nat2N.inj_succ, N.pow_succ_r'.
    symmetry. apply N.mod_mul_r.
    + lia.
    + apply N.pow_nonzero. lia.
Qed.

Lemma le_bytes_le_value bs : le_bytes (length bs) (le_value bs) = bs.
Proof.
  induction bs as [|b bs IH]; [reflexivity|].
  cbn [length le_bytes le_value].
  f_equal.
  - rewrite (N.mul_comm 256), N.mod_add by lia.
    rewrite N.mod_small by apply b2n_bound. apply n2b_b2n.
  - rewrite (N.mul_comm 256), N.div_add by lia.
    rewrite N.div_small by apply b2n_bound. simpl. exact IH.
Qed.

Lemma le_value_bound bs : (le_value bs < 256 ^ lenN bs)%N.
Proof.
  unfold lenN. induction bs as [|b bs IH]; [reflexivity|].
  cbn [length le_value]. rewrite Nat2N.inj_succ, N.pow_succ_r'.
  pose proof (b2n_bound b). lia.
Qed.

Lemma le_bytes_inj k m n :
  (m < 256 ^ N.of_nat k)%N -> (n < 256 ^ N.of_nat k)%N ->
  le_bytes k m = le_bytes k n -> m = n.
Proof.
  intros Hm Hn H. apply (f_equal le_value) in H.
  rewrite !le_value_le_bytes in H. now rewrite !N.mod_small in H by assumption.
Qed.

(** ** Outcomes *)

Lemma bind_ok {E A B} (x : outcome E A) (f : A -> outcome E B) b :
  bind x f = Ok b <-> exists a, x = Ok a /\ f a = Ok b.
Proof.
  destruct x; simpl; split; intros H.
  - eauto.
  - destruct H as (a' & H & ?). now inversion H.
  - discriminate.
  - destruct H as (? & H & ?). discriminate.
  - discriminate.
  - destruct H as (? & H & ?). discriminate.
Qed.

Lemma ensure_ok {E} c (e : E) u : ensure c e = Ok u -> c = true.
Proof. destruct c; simpl; congruence. Qed.

Lemma map_out_ok {E A B} (f : A -> outcome E B) l r :
  map_out f l = Ok r <-> Forall2 (fun a b => f a = Ok b) l r.
Proof.
  revert r; induction l as [|a l IH]; intros r; simpl; split; intros H.
  - inversion H. constructor.
  - inversion H. reflexivity.
  - apply bind_ok in H as (b & Hb & H). apply bind_ok in H as (bs & Hbs & H).
    inversion H; subst. constructor; auto. now apply IH.
  - inversion H; subst. rewrite H2. simpl.
    apply IH in H4. rewrite H4. reflexivity.
Qed.

Lemma NoDup_app_l {A} (l k : list A) : NoDup (l ++ k) -> NoDup l.
Proof.
  induction l as [|a l IH]; simpl; intros H; [constructor|].
  inversion H; subst. constructor; auto. intros Hin. apply H2. apply in_or_app. now left.
Qed.

Lemma NoDup_app_r {A} (l k : list A) : NoDup (l ++ k) -> NoDup k.
Proof. induction l; simpl; intros H; auto. inversion H; auto. Qed.

Lemma NoDup_firstn {A} (l : list A) k : NoDup l -> NoDup (firstn k l).
Proof. intros H. rewrite <- (firstn_skipn k l) in H. now apply NoDup_app_l in H. Qed.

Lemma in_firstn {A} (x : A) k l : In x (firstn k l) -> In x l.
Proof. intros H. rewrite <- (firstn_skipn k l). apply in_or_app. now left. Qed.

Lemma in_skipn {A} (x : A) k l : In x (skipn k l) -> In x l.
Proof. intros H. rewrite <- (firstn_skipn k l). apply in_or_app. now right. Qed.

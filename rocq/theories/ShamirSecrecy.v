(** Perfect secrecy of threshold sharing: unique random choice for every view and secret. *)
From Coq Require Import List NArith Bool Lia PeanoNat.
From Coq.Strings Require Import Byte.
From Verif Require Import Base BaseFacts Gf256 GfProofs ShamirSpec PolyProofs Shamir ShamirProofs.
Import ListNotations.

(** Row-major [k] x [L] matrix. *)
Fixpoint matrix (f : nat -> nat -> byte) (k L : nat) : bytes :=
  match k with
  | O => []
  | S k => matrix f k L ++ map (f k) (seq 0 L)
  end.

Lemma matrix_length f k L : length (matrix f k L) = k * L.
Proof. induction k; simpl; auto. rewrite app_length, map_length, seq_length. lia. Qed.

Lemma matrix_nth f k L m j : m < k -> j < L -> nth (m * L + j) (matrix f k L) x00 = f m j.
Proof.
  induction k; intros Hm Hj; [lia|]. cbn [matrix].
  destruct (Nat.eq_dec m k) as [->|].
  - rewrite app_nth2 by (rewrite matrix_length; lia).
    rewrite matrix_length. replace (k * L + j - k * L) with j by lia. now apply nth_map_seq.
  - rewrite app_nth1.
    + apply IHk; lia.
    + rewrite matrix_length. nia.
Qed.

Lemma matrix_ext l l' k L :
  length l = k * L -> length l' = k * L ->
  (forall m j, m < k -> j < L -> nth (m * L + j) l x00 = nth (m * L + j) l' x00) -> l = l'.
Proof.
  intros H1 H2 H. apply (list_ext x00); [lia|]. intros i Hi. rewrite H1 in Hi.
  assert (HL : L <> 0) by nia.
  rewrite (Nat.div_mod i L HL), (Nat.mul_comm L). apply H.
  - apply Nat.div_lt_upper_bound; lia.
  - now apply Nat.mod_upper_bound.
Qed.

Lemma nth_map_lt {A B} (f : A -> B) l i da db : i < length l -> nth i (map f l) db = f (nth i l da).
Proof.
  intros. rewrite (nth_indep _ db (f da)) by now rewrite map_length. apply map_nth.
Qed.

Lemma col_nth r L k j m : m < k -> nth m (col r L k j) x00 = r (m * L + j).
Proof.
  intros. unfold col. rewrite (nth_map_lt _ _ _ 0) by now rewrite seq_length.
  now rewrite seq_nth by assumption.
Qed.

(** The evaluation point of share [i]. *)
Definition xpoint (i : N) : byte := n2b (i + 1).

Lemma xpoint_val n i : (n <= 255)%N -> (i < n)%N -> b2n (xpoint i) = (i + 1)%N.
Proof. intros. unfold xpoint. apply b2n_n2b_small. lia. Qed.

Section Secrecy.
  Context (secret : bytes) (n t : N) (idxs : list N) (obs : list bytes).
  Hypothesis H1t : (1 <= t)%N.
  Hypothesis Htn : (t <= n)%N.
  Hypothesis Hn : (n <= 255)%N.
  Hypothesis ND : NoDup idxs.
  Hypothesis Hlen : (lenN idxs = t - 1)%N.
  Hypothesis Hidx : Forall (fun i => i < n)%N idxs.
  Hypothesis Hobs : length obs = length idxs.
  Hypothesis HobsL : Forall (fun o => length o = length secret) obs.

  Let L := length secret.
  Let k := (N.to_nat t - 1).
  Let xs := map xpoint idxs.
  Let all := x00 :: xs.

  Lemma xs_nodup : NoDup all.
  Proof.
    unfold all, xs. rewrite Forall_forall in Hidx. constructor.
    - intros Hin. apply in_map_iff in Hin as (i & He & Hi).
      apply (f_equal b2n) in He. rewrite (xpoint_val n) in He by auto.
      change (b2n x00) with 0%N in He. lia.
    - clear Hlen Hobs. induction idxs as [|i l IH]; simpl; [constructor|].
      inversion ND; subst. constructor.
      + intros Hin. apply in_map_iff in Hin as (i' & He & Hi').
        apply (f_equal b2n) in He.
        rewrite !(xpoint_val n) in He by (auto; apply Hidx; simpl; auto).
        assert (i' = i) by lia. subst. contradiction.
      + apply IH; auto. intros z Hz. apply Hidx. now right.
  Qed.

  Definition obs_points (j : nat) : list (byte * byte) :=
    (x00, nth j secret x00) :: map (fun '(i, o) => (xpoint i, nth j o x00)) (combine idxs obs).

  Lemma obs_points_fst j : map fst (obs_points j) = all.
  Proof.
    unfold obs_points, all, xs. simpl. f_equal. rewrite map_map.
    clear - Hobs. revert obs Hobs. induction idxs as [|i l IH]; intros [|o os] H; simpl in *; auto; try lia.
    f_equal. apply IH. lia.
  Qed.

  Definition target (j : nat) : bytes := interp all (obs_points j).

  Lemma k_len : length idxs = k.
  Proof. unfold k. unfold lenN in Hlen. lia. Qed.

  Lemma target_length j : length (target j) = S k.
  Proof.
    unfold target. rewrite interp_length_eq.
    - unfold all, xs. simpl. now rewrite map_length, k_len.
    - apply xs_nodup.
    - rewrite obs_points_fst. apply incl_refl.
    - discriminate.
  Qed.

  Lemma target_eval j x y : In (x, y) (obs_points j) -> peval (target j) x = y.
  Proof.
    intros. unfold target. apply interp_eval; auto; rewrite obs_points_fst.
    - apply xs_nodup.
    - apply incl_refl.
  Qed.

  Lemma target_hd j : hd x00 (target j) = nth j secret x00.
  Proof. rewrite <- peval_0. apply target_eval. now left. Qed.

  Lemma target_poly j : target j = nth j secret x00 :: tl (target j).
  Proof.
    pose proof (target_length j) as Hl. pose proof (target_hd j) as Hh.
    destruct (target j); simpl in *; [lia|]. congruence.
  Qed.

  (** The shares with the given indices show [obs]. *)
  Definition shows (r : rng) : Prop :=
    exists shares r', create_secret_shares secret n t r = Ok (shares, r') /\
                      map (fun i => nth (N.to_nat i) shares []) idxs = obs.

  Lemma shows_iff r :
    shows r <-> forall j, j < L -> share_poly secret r (N.to_nat t) j = target j.
  Proof.
    unfold shows.
    destruct (create_closed_form secret n t r H1t Htn Hn) as (r' & HC & _).
    rewrite HC.
    assert (Hsh : forall i, In i idxs ->
       nth (N.to_nat i) (map (share_at secret r (N.to_nat t)) (seq 0 (N.to_nat n))) []
       = share_at secret r (N.to_nat t) (N.to_nat i)).
    { intros i Hi. rewrite Forall_forall in Hidx. pose proof (Hidx i Hi).
      rewrite (nth_map_lt _ _ _ 0) by (rewrite seq_length; lia).
      rewrite seq_nth by lia. reflexivity. }
    assert (Hmap : map (fun i => nth (N.to_nat i) (map (share_at secret r (N.to_nat t)) (seq 0 (N.to_nat n))) []) idxs
       = map (fun i => share_at secret r (N.to_nat t) (N.to_nat i)) idxs).
    { apply map_ext_in. exact Hsh. }
    split.
    - intros (shares & r'' & HE & HO). inversion HE; subst shares r''; clear HE.
      rewrite Hmap in HO. intros j Hj.
      apply (poly_unique _ _ all).
      + apply xs_nodup.
      + unfold share_poly. simpl. rewrite col_length, target_length. reflexivity.
      + unfold share_poly. simpl. rewrite col_length. unfold all, xs. simpl. rewrite map_length, k_len. unfold k. lia.
      + intros x [Hx|Hx].
        * subst x. rewrite (target_eval j x00 (nth j secret x00)) by now left.
          rewrite peval_0. reflexivity.
        * unfold xs in Hx. apply in_map_iff in Hx as (i & <- & Hi).
          symmetry. apply target_eval. right.
          assert (Hin : In (i, share_at secret r (N.to_nat t) (N.to_nat i)) (combine idxs obs)).
          { rewrite <- HO. clear - Hi. induction idxs as [|a l IH]; simpl in *; [tauto|].
            destruct Hi as [->|Hi]; [now left | right; auto]. }
          apply in_map_iff. exists (i, share_at secret r (N.to_nat t) (N.to_nat i)).
          split; auto. f_equal. unfold share_at. rewrite nth_map_seq by exact Hj.
          rewrite N2Nat.id. reflexivity.
    - intros HT. eexists _, r'. split; [reflexivity|]. rewrite Hmap.
      apply (list_ext []); [rewrite map_length; lia|].
      intros m Hm. rewrite map_length in Hm.
      rewrite (nth_map_lt _ _ _ 0%N) by assumption.
      set (i := nth m idxs 0%N).
      assert (Hin : In (i, nth m obs []) (combine idxs obs)).
      { unfold i. rewrite <- combine_nth by auto. apply nth_In.
        rewrite combine_length. lia. }
      assert (Ho : length (nth m obs []) = L).
      { rewrite Forall_forall in HobsL. apply HobsL. apply nth_In. lia. }
      unfold share_at. rewrite <- (map_nth_seq (nth m obs [])), Ho. fold L.
      apply map_ext_in. intros j Hj. apply in_seq in Hj.
      rewrite HT by lia. rewrite N2Nat.id. apply target_eval. right.
      apply in_map_iff. exists (i, nth m obs []). split; auto.
  Qed.

  Lemma secrecy_unique :
    exists! l, length l = k * L /\ forall r, rng_starts_with l r -> shows r.
  Proof.
    exists (matrix (fun m j => nth m (tl (target j)) x00) k L).
    split.
    - split; [apply matrix_length|]. intros r Hr. apply shows_iff. intros j Hj.
      rewrite target_poly. unfold share_poly. f_equal.
      apply (list_ext x00).
      + rewrite col_length. pose proof (target_length j) as Hl.
        destruct (target j); simpl in *; [lia|]. unfold k in Hl. lia.
      + intros m Hm. rewrite col_length in Hm. rewrite col_nth by assumption.
        unfold rng_starts_with in Hr. rewrite Hr.
        * now rewrite matrix_nth.
        * rewrite matrix_length. fold k in Hm. fold L. nia.
    - intros l' [Hl' HS]. apply (matrix_ext _ _ k L); auto using matrix_length.
      intros m j Hm Hj. rewrite matrix_nth by assumption.
      set (r := fun i => nth i l' x00).
      assert (Hs : shows r) by (apply HS; intros i Hi; reflexivity).
      rewrite shows_iff in Hs. rewrite <- (Hs j Hj). unfold share_poly. cbn [tl].
      rewrite col_nth by (unfold k in Hm; lia). reflexivity.
  Qed.
End Secrecy.

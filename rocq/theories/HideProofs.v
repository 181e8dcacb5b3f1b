(** Proofs for confidentiality: splitting keys is linear, so a change of the key is compensated by a
    change of the random bytes that cannot be seen by who holds too few parts. *)
From Coq Require Import List NArith Bool Lia PeanoNat.
From Coq.Strings Require Import Byte.
From Verif Require Import Base BaseFacts Gf256 GfProofs ShamirSpec Shamir PolyProofs ShamirProofs ShamirSecrecy Errors HeaderIo Crypto
  Proto HeaderCrypto SplitProofs CredSpec HeaderCryptoProofs HideSpec.
Import ListNotations.

(** ** Splitting in closed form *)

Definition split_coins (L : nat) (n t : N) : nat :=
  if (t =? 1)%N then 0 else if (t =? n)%N then (N.to_nat n - 1) * L else (N.to_nat t - 1) * L.

Definition parts_fn (key : bytes) (n t : N) (r : rng) : list bytes :=
  if (t =? 1)%N then repeat key (N.to_nat n)
  else if (t =? n)%N then rows r (length key) (N.to_nat n - 1) ++ [bx key (xorl (length key) (rows r (length key) (N.to_nat n - 1)))]
  else map (share_at key r (N.to_nat t)) (seq 0 (N.to_nat n)).

Lemma split_closed key n t r parts ro :
  split_key_into_key_parts key n t r = Ok (parts, ro) ->
  parts = parts_fn key n t r /\ (forall i, ro i = r (split_coins (length key) n t + i)) /\
  forall key' r', length key' = length key ->
    exists ro', split_key_into_key_parts key' n t r' = Ok (parts_fn key' n t r', ro') /\
                (forall i, ro' i = r' (split_coins (length key) n t + i)).
Proof.
  intros H. pose proof H as H0. unfold split_key_into_key_parts in *.
  destruct (negb (t =? 0)%N) eqn:E1; cbn [ensure bind] in *; [|discriminate].
  destruct (t <=? n)%N eqn:E2; cbn [ensure bind] in *; [|discriminate].
  destruct (wrap64 (lenN key * n) <? MAX_HEADER_LEN)%N eqn:E3; cbn [ensure bind] in *; [|discriminate].
  unfold split_coins, parts_fn.
  destruct (t =? 1)%N eqn:E4.
  { destruct (lenN key * n <? two64)%N eqn:E5; cbn [assert bind] in *; [|discriminate]. injection H as <- <-.
    split; [reflexivity|]. split; [reflexivity|]. intros key' r' HL.
    assert (EL : lenN key' = lenN key) by (unfold lenN; now rewrite HL). rewrite EL, E3, E5. cbn [ensure assert bind].
    eexists. split; reflexivity. }
  destruct (t =? n)%N eqn:E6.
  { destruct (lenN key * n <? two64)%N eqn:E5; cbn [assert bind] in *; [|discriminate].
    destruct (xor_split_spec (N.to_nat n - 1) key r) as (q & E & Hq). rewrite E in H. injection H as <- <-.
    split; [reflexivity|]. split; [exact Hq|]. intros key' r' HL.
    assert (EL : lenN key' = lenN key) by (unfold lenN; now rewrite HL). rewrite EL, E3, E5. cbn [ensure assert bind].
    destruct (xor_split_spec (N.to_nat n - 1) key' r') as (q' & E' & Hq'). exists q'. rewrite E', <- HL. split; [reflexivity|exact Hq']. }
  destruct (create_secret_shares key n t r) as [[p q]|e|] eqn:E; cbn [map_err] in H; try discriminate.
  injection H as <- <-.
  pose proof (proj1 (proj1 (proj2 (create_errors key n t r))) (ex_intro _ _ E)) as (A & B & C).
  destruct (create_closed_form key n t r A B C) as (q' & E' & Hq). rewrite E in E'. injection E' as -> ->.
  split; [reflexivity|]. split; [exact Hq|]. intros key' r' HL.
  assert (EL : lenN key' = lenN key) by (unfold lenN; now rewrite HL). rewrite EL, E3. cbn [ensure bind].
  destruct (create_closed_form key' n t r' A B C) as (q2 & E2' & Hq2). rewrite E2'. exists q2. rewrite <- HL. split; [reflexivity|exact Hq2].
Qed.

(** ** Linearity *)

Definition rng_of (m : bytes) : rng := fun i => nth i m x00.

Lemma peval_bx p q x : length p = length q -> peval (bx p q) x = bxor (peval p x) (peval q x).
Proof.
  revert q. induction p as [|a p IH]; intros [|b q] H; try discriminate; cbn [map2 peval].
  - reflexivity.
  - rewrite IH by (simpl in H; lia). change bxor with gf_add. ring.
Qed.

Lemma bx_map {A} (f g : A -> byte) l : bx (map f l) (map g l) = map (fun a => bxor (f a) (g a)) l.
Proof. induction l; simpl; [reflexivity|]. now rewrite IHl. Qed.

Lemma map2_map {A B C D} (h : B -> C -> D) (f : A -> B) (g : A -> C) l : map2 h (map f l) (map g l) = map (fun a => h (f a) (g a)) l.
Proof. induction l; simpl; [reflexivity|]. now rewrite IHl. Qed.

Lemma nth_bx a b i : length a = length b -> nth i (bx a b) x00 = bxor (nth i a x00) (nth i b x00).
Proof.
  revert b i. induction a as [|x a IH]; intros [|y b] i H; try discriminate; [destruct i; reflexivity|].
  destruct i; simpl; [reflexivity|]. apply IH. simpl in H. lia.
Qed.

Lemma share_at_linear k d m r r' t i : length k = length d -> masked m r r' ->
  share_at (bx k d) r' t i = bx (share_at k r t i) (share_at d (rng_of m) t i).
Proof.
  intros HL HM. unfold share_at. rewrite (bx_length k d (length d)) by auto. rewrite HL, bx_map. apply map_ext. intros j.
  rewrite <- peval_bx by (unfold share_poly; cbn [length]; now rewrite !col_length). f_equal.
  unfold share_poly. cbn [map2]. rewrite nth_bx by exact HL. f_equal.
  unfold col. rewrite bx_map. rewrite (bx_length k d (length d)), HL by auto. apply map_ext. intros a. apply HM.
Qed.

Lemma rows_linear m r r' L k : masked m r r' -> rows r' L k = map2 bx (rows r L k) (rows (rng_of m) L k).
Proof.
  intros HM. unfold rows. rewrite map2_map. apply map_ext. intros i. unfold row. rewrite bx_map. apply map_ext. intros j. apply HM.
Qed.

Lemma bx_swap a b c d : bx (bx a b) (bx c d) = bx (bx a c) (bx b d).
Proof. rewrite !bx_assoc. f_equal. rewrite <- !bx_assoc. f_equal. apply bx_comm. Qed.

Lemma xorl_linear L l k : length l = length k -> Forall (fun s => length s = L) l -> Forall (fun s => length s = L) k ->
  xorl L (map2 bx l k) = bx (xorl L l) (xorl L k).
Proof.
  revert k. induction l as [|a l IH]; intros [|b k] H F G; try discriminate; cbn [map2].
  - cbn. symmetry. apply bx_zeros_l. apply repeat_length.
  - inversion F; inversion G; subst. cbn [xorl fold_right]. rewrite bx_swap. f_equal. apply IH; auto.
Qed.

Lemma map2_app {A B C} (f : A -> B -> C) l k l' k' : length l = length l' ->
  map2 f (l ++ k) (l' ++ k') = map2 f l l' ++ map2 f k k'.
Proof. revert l'. induction l; intros [|b l'] H; try discriminate; simpl; [reflexivity|]. f_equal. apply IHl. simpl in H. lia. Qed.

Lemma map2_repeat {A B C} (f : A -> B -> C) a b n : map2 f (repeat a n) (repeat b n) = repeat (f a b) n.
Proof. induction n; simpl; [reflexivity|]. now rewrite IHn. Qed.

Lemma parts_linear k d m r r' n t : length k = length d -> masked m r r' ->
  parts_fn (bx k d) n t r' = map2 bx (parts_fn k n t r) (parts_fn d n t (rng_of m)).
Proof.
  intros HL HM. unfold parts_fn. destruct (t =? 1)%N; [now rewrite map2_repeat|].
  destruct (t =? n)%N.
  - rewrite (bx_length k d (length d)), HL by auto. rewrite map2_app by now rewrite !rows_length.
    rewrite (rows_linear m r r') by exact HM. f_equal. cbn [map2]. f_equal.
    rewrite xorl_linear; [apply bx_swap|now rewrite !rows_length|apply rows_lengths|apply rows_lengths].
  - rewrite map2_map. apply map_ext. intros i. now apply share_at_linear.
Qed.

Lemma parts_lengths key n t r : (1 <= n)%N -> (length (parts_fn key n t r) = N.to_nat n) /\ Forall (fun s => length s = length key) (parts_fn key n t r).
Proof.
  intros Hn. unfold parts_fn. destruct (t =? 1)%N; [|destruct (t =? n)%N].
  - split; [apply repeat_length|]. apply Forall_forall. intros x Hx. apply repeat_spec in Hx. now subst.
  - split; [rewrite app_length, rows_length; simpl; lia|]. apply Forall_app. split; [apply rows_lengths|].
    constructor; [|constructor]. apply bx_length; auto. apply xorl_length, rows_lengths.
  - split; [now rewrite map_length, seq_length|]. apply Forall_map, Forall_forall. intros i _. unfold share_at. now rewrite map_length, seq_length.
Qed.

Lemma masked_zeros L r r' : (forall i, r' i = r i) -> masked (zeros L) r r'.
Proof.
  intros H i. rewrite H. replace (nth i (zeros L) x00) with x00; [now rewrite bxor_0_r|].
  unfold zeros. destruct (Nat.lt_ge_cases i L); [now rewrite repeat_nth|]. rewrite nth_overflow; [reflexivity|]. now rewrite repeat_length.
Qed.

(** The parts of a zero key without randomness are zero. *)
Lemma parts_zero L n t m : (1 <= n)%N -> Forall (eq (zeros L)) (parts_fn (zeros L) n t (rng_of (zeros m))).
Proof.
  intros Hn. set (r := rng_of (zeros m)).
  assert (LZ : length (zeros L) = L) by apply repeat_length.
  pose proof (parts_linear (zeros L) (zeros L) (zeros m) r r n t eq_refl (masked_zeros m r r (fun i => eq_refl))) as E.
  rewrite bx_self, LZ in E. fold r in E.
  destruct (parts_lengths (zeros L) n t r Hn) as (_ & F). rewrite LZ in F.
  set (P := parts_fn (zeros L) n t r) in *. clearbody P. clear -E F.
  induction F as [|a P Ha F IH]; constructor.
  - cbn [map2] in E. injection E as E _. rewrite bx_self in E. congruence.
  - apply IH. cbn [map2] in E. now injection E.
Qed.

(** ** A change of the key can be hidden from who sees fewer than threshold many parts *)

Lemma extend_idxs (n : N) k : forall W, NoDup W -> Forall (fun i => i < n)%N W -> (lenN W + N.of_nat k <= n)%N ->
  exists W', NoDup W' /\ Forall (fun i => i < n)%N W' /\ lenN W' = (lenN W + N.of_nat k)%N /\ incl W W'.
Proof.
  induction k as [|k IH]; intros W ND HF HL.
  - exists W. repeat split; auto; [lia|]. apply incl_refl.
  - assert (X : exists i, (i < n)%N /\ ~ In i W).
    { destruct (find (fun i => negb (existsb (N.eqb i) W)) (map N.of_nat (seq 0 (N.to_nat n)))) as [i|] eqn:E.
      - apply find_some in E as (A & B). apply in_map_iff in A as (j & <- & Hj). apply in_seq in Hj. exists (N.of_nat j). split; [lia|].
        intros C. apply negb_true_iff in B. rewrite (proj2 (existsb_exists _ _)) in B; [discriminate|].
        exists (N.of_nat j). split; auto. apply N.eqb_refl.
      - exfalso. assert (I : incl (map N.of_nat (seq 0 (N.to_nat n))) W).
        { intros i Hi. apply (find_none _ _ E) in Hi. apply negb_false_iff, existsb_exists in Hi as (j & Hj & Ej).
          apply N.eqb_eq in Ej. now subst. }
        apply NoDup_incl_length in I; [rewrite map_length, seq_length in I; unfold lenN in HL; lia|].
        apply FinFun.Injective_map_NoDup; [intros a b; lia|apply seq_NoDup]. }
    destruct X as (i & Hi & Ni). destruct (IH (i :: W)) as (W' & A & B & C & D).
    + now constructor.
    + now constructor.
    + rewrite lenN_cons. lia.
    + exists W'. repeat split; auto; [rewrite C, lenN_cons; lia|]. intros x Hx. apply D. now right.
Qed.

Lemma zero_obs (L : nat) (W : list N) : Forall (fun o => length o = L) (map (fun _ => zeros L) W).
Proof. apply Forall_map, Forall_forall. intros. apply repeat_length. Qed.

Lemma hiding_mask d n t W r key parts ro :
  split_key_into_key_parts key n t r = Ok (parts, ro) -> length d = length key ->
  NoDup W -> Forall (fun i => i < n)%N W -> (lenN W < t)%N ->
  exists m, length m = split_coins (length key) n t /\
    forall i, In i W -> nth (N.to_nat i) (parts_fn d n t (rng_of m)) [] = zeros (length key).
Proof.
  intros H HL ND HW Ht.
  pose proof (split_ok_parts _ _ _ _ _ _ H) as ((A & B & _) & _ & C).
  destruct (N.eqb_spec t 1) as [->|N1].
  { exists []. split; [reflexivity|]. intros i Hi. destruct W; [contradiction|]. rewrite lenN_cons in Ht. lia. }
  destruct (extend_idxs n (N.to_nat (t - 1 - lenN W)) W ND HW) as (W' & ND' & HW' & LW' & I); [lia|].
  assert (LW : lenN W' = (t - 1)%N) by lia.
  set (obs := map (fun _ : N => zeros (length key)) W').
  assert (OL : length obs = length W') by (unfold obs; now rewrite map_length).
  assert (OF : Forall (fun o => length o = length d) obs) by (unfold obs; rewrite HL; apply zero_obs).
  assert (Fin : forall P, map (fun i => nth (N.to_nat i) P []) W' = obs -> forall i, In i W -> nth (N.to_nat i) P [] = zeros (length key)).
  { intros P E i Hi. apply I in Hi. unfold obs in E. clear -E Hi. induction W' as [|a W' IH]; [contradiction|].
    cbn [map] in E. injection E as E1 E2. destruct Hi as [->|Hi]; auto. }
  destruct (N.eqb_spec t n) as [->|N2].
  - assert (Hfit : (lenN d * n < MAX_HEADER_LEN)%N).
    { unfold lenN. rewrite HL. fold (lenN key). unfold split_key_into_key_parts in H.
      destruct (negb (n =? 0)%N); cbn [ensure bind] in H; [|discriminate].
      destruct (n <=? n)%N; cbn [ensure bind] in H; [|discriminate].
      destruct (wrap64 (lenN key * n) <? MAX_HEADER_LEN)%N eqn:E3; cbn [ensure bind] in H; [|discriminate].
      destruct (N.eqb_spec n 1); [contradiction|]. rewrite N.eqb_refl in H.
      destruct (lenN key * n <? two64)%N eqn:E5; cbn [assert bind] in H; [|discriminate].
      apply N.ltb_lt in E3, E5. unfold wrap64 in E3. rewrite N.mod_small in E3; assumption. }
    destruct (xor_secrecy_unique d n W' obs) as (m & (Lm & Hm) & _); auto; [lia|].
    exists m. unfold split_coins. rewrite N.eqb_refl. destruct (N.eqb_spec n 1); [contradiction|]. split; [now rewrite Lm, HL|].
    specialize (Hm (rng_of m)). apply xshows_iff in Hm; auto; [|lia|intros i Hi; reflexivity].
    apply Fin. unfold parts_fn. rewrite N.eqb_refl. destruct (N.eqb_spec n 1); [contradiction|]. exact Hm.
  - assert (C' : (n <= 255)%N) by auto.
    destruct (secrecy_unique d n t W' obs) as (m & (Lm & Hm) & _); auto.
    exists m. unfold split_coins. destruct (N.eqb_spec t 1); [contradiction|]. destruct (N.eqb_spec t n); [contradiction|].
    split; [now rewrite Lm, HL|].
    destruct (Hm (rng_of m)) as (sh & r' & E & Ho); [intros i Hi; reflexivity|].
    destruct (create_closed_form d n t (rng_of m) A B C') as (q & E' & _). rewrite E in E'. injection E' as -> ->.
    apply Fin. unfold parts_fn. destruct (N.eqb_spec t 1); [contradiction|]. destruct (N.eqb_spec t n); [contradiction|]. exact Ho.
Qed.

(** ** Only the random bytes that are used matter *)

Definition masked_on (m : bytes) (r r' : rng) : Prop := forall i, i < length m -> r' i = bxor (r i) (nth i m x00).

Lemma parts_ext key n t r r' : (1 <= t)%N -> (forall i, i < split_coins (length key) n t -> r i = r' i) ->
  parts_fn key n t r = parts_fn key n t r'.
Proof.
  intros Ht H. unfold parts_fn, split_coins in *. destruct (N.eqb_spec t 1); [reflexivity|]. destruct (N.eqb_spec t n).
  - assert (E : rows r (length key) (N.to_nat n - 1) = rows r' (length key) (N.to_nat n - 1)).
    { unfold rows. apply map_ext_in. intros i Hi. apply in_seq in Hi. unfold row. apply map_ext_in. intros j Hj. apply in_seq in Hj.
      apply H. nia. }
    now rewrite E.
  - apply map_ext. intros i. unfold share_at. apply map_ext_in. intros j Hj. apply in_seq in Hj. f_equal. unfold share_poly. f_equal.
    unfold col. apply map_ext_in. intros a Ha. apply in_seq in Ha. apply H. nia.
Qed.

Lemma parts_linear_on k d m r r' n t : length k = length d -> (1 <= t)%N -> length m = split_coins (length k) n t -> masked_on m r r' ->
  parts_fn (bx k d) n t r' = map2 bx (parts_fn k n t r) (parts_fn d n t (rng_of m)).
Proof.
  intros HL Ht Lm HM. set (r2 := fun i => bxor (r i) (nth i m x00)).
  rewrite <- (parts_linear k d m r r2) by (auto; intros i; reflexivity). apply parts_ext; [exact Ht|].
  rewrite (bx_length k d (length k)), <- Lm by auto. intros i Hi. apply HM. exact Hi.
Qed.

Lemma masked_on_l m1 m2 r r' : masked_on (m1 ++ m2) r r' -> masked_on m1 r r'.
Proof. intros H i Hi. rewrite H by (rewrite app_length; lia). f_equal. now rewrite app_nth1. Qed.

Lemma masked_on_r m1 m2 r r' ro ro' : masked_on (m1 ++ m2) r r' ->
  (forall i, ro i = r (length m1 + i)) -> (forall i, ro' i = r' (length m1 + i)) -> masked_on m2 ro ro'.
Proof.
  intros H A B i Hi. rewrite A, B, H by (rewrite app_length; lia). f_equal. rewrite app_nth2 by lia. f_equal. lia.
Qed.

Lemma masked_on_zeros L r r' : (forall i, r' i = r i) -> masked_on (zeros L) r r'.
Proof. intros H i _. now apply masked_zeros. Qed.

(** ** Trees *)

Lemma concat_bx len : forall a b, length a = length b -> Forall (fun s => length s = len) a -> Forall (fun s => length s = len) b ->
  concat (map2 bx a b) = bx (concat a) (concat b).
Proof.
  induction a as [|x a IH]; intros [|y b] H F G; try discriminate; [reflexivity|]. inversion F; inversion G; subst.
  cbn [map2 concat]. rewrite map2_app by congruence. f_equal. apply IH; auto.
Qed.

Lemma concat_len len : forall l : list bytes, Forall (fun s => length s = len) l -> length (concat l) = length l * len.
Proof. induction 1; simpl; [reflexivity|]. rewrite app_length. lia. Qed.

Lemma concat_zeros len : forall l : list bytes, Forall (eq (zeros len)) l -> concat l = zeros (length l * len).
Proof. induction 1; simpl; [reflexivity|]. subst. rewrite IHForall. unfold zeros. now rewrite repeat_app. Qed.

Section Tree.
Variables (cs : cryptosys) (seed : bytes).
Let epk := fst (cs_keypair cs seed).
Let esk := snd (cs_keypair cs seed).

(** Xoring [m] into the randomness compensates xoring [d] into the key. *)
Definition hiding (c : cred) (len : nat) (d m : bytes) : Prop :=
  forall kp idx r kd idx' ro r', length kp = len ->
    encrypt_key_data cs epk esk c kp idx r = Ok (kd, (idx', ro)) -> masked_on m r r' ->
    (forall i, ro i = r (length m + i)) /\
    exists ro', encrypt_key_data cs epk esk c (bx kp d) idx r' = Ok (kd, (idx', ro')) /\ (forall i, ro' i = r' (length m + i)).

(** [d] are the changes of the parts of a group with members [subs]. *)
Inductive hm (len : nat) : list (N * cred) -> list bytes -> bytes -> Prop :=
| hm_nil d : hm len [] d []
| hm_cons k c subs d1 d2 m1 m2 :
    length d1 = N.to_nat k -> hiding c (N.to_nat k * len) (concat d1) m1 -> hm len subs d2 m2 ->
    hm len ((k, c) :: subs) (d1 ++ d2) (m1 ++ m2).

Lemma split_at_ok {E} (k : N) (l l1 l2 : list bytes) : @split_at E bytes k l = Ok (l1, l2) <-> l = l1 ++ l2 /\ length l1 = N.to_nat k.
Proof.
  unfold split_at. destruct (N.leb_spec k (lenN l)) as [H|H]; split.
  - intros X. injection X as <- <-. split; [symmetry; apply firstn_skipn|]. unfold lenN in H. rewrite firstn_length. lia.
  - intros (-> & L). rewrite <- L, firstn_app_exact, skipn_app_exact. reflexivity.
  - discriminate.
  - intros (-> & L). unfold lenN in H. rewrite app_length in H. lia.
Qed.

Lemma members len subs d m : hm len subs d m -> forall parts idx r ekps parts' idx' ro r',
  length parts = length d -> Forall (fun s => length s = len) parts -> Forall (fun s => length s = len) d ->
  smap (sub_enc cs seed) subs (parts, (idx, r)) = Ok (ekps, (parts', (idx', ro))) -> masked_on m r r' ->
  (forall i, ro i = r (length m + i)) /\
  exists p' ro', smap (sub_enc cs seed) subs (map2 bx parts d, (idx, r')) = Ok (ekps, (p', (idx', ro'))) /\
                 (forall i, ro' i = r' (length m + i)).
Proof.
  induction 1 as [d|k c subs d1 d2 m1 m2 Ld Hh Hm IH]; intros parts idx r ekps parts' idx' ro r' HL HP HD H HM.
  - injection H as <- <- <- <-. split; [reflexivity|]. exists (map2 bx parts d), r'. split; reflexivity.
  - apply smap_cons in H as (b & s1 & bs & s2 & E1 & E2 & E3). injection E3 as -> <-.
    unfold sub_enc in E1. apply bind_ok in E1 as ([mine rest] & Hs & E1).
    apply bind_ok in E1 as ([kd [i1 r1]] & He & E1). injection E1 as <- <-.
    apply split_at_ok in Hs as (-> & Lm). rewrite Forall_app in HP, HD. destruct HP as [HP1 HP2], HD as [HD1 HD2].
    rewrite !app_length in HL.
    destruct (Hh _ _ _ _ _ _ r' ltac:(rewrite (concat_len len) by exact HP1; now rewrite Lm) He (masked_on_l _ _ _ _ HM)) as (A1 & r1' & A2 & A3).
    destruct (IH rest i1 r1 bs parts' idx' ro r1' ltac:(lia) HP2 HD2 E2 (masked_on_r _ _ _ _ _ _ HM A1 A3)) as (B1 & p' & ro' & B2 & B3).
    split; [intros i; rewrite B1, A1, app_length; f_equal; lia|].
    exists p', ro'. split; [|intros i; rewrite B3, A3, app_length; f_equal; lia].
    apply smap_cons. exists (one_to_zero k, kd), (map2 bx rest d2, (i1, r1')), bs, (p', (idx', ro')).
    split; [|split; [exact B2|reflexivity]].
    unfold sub_enc. rewrite map2_app by lia.
    rewrite (proj2 (split_at_ok k _ (map2 bx mine d1) (map2 bx rest d2))).
    2:{ split; [reflexivity|]. rewrite map2_length. lia. }
    cbn [bind]. rewrite (concat_bx len) by (auto; lia). fold epk esk. rewrite A2. reflexivity.
Qed.

(** A change of the key of a group, compensated inside the group. *)
Lemma group_hiding subs n t len d m0 mm :
  length d = len -> (1 <= n)%N -> length m0 = split_coins len n t -> hm len subs (parts_fn d n t (rng_of m0)) mm ->
  hiding (Complex subs n t) len d (m0 ++ mm).
Proof.
  intros Ld Hn L0 Hm kp idx r kd idx' ro r' Lk H HM.
  unfold epk, esk in *; rewrite encrypt_complex in H. apply bind_ok in H as ([parts r1] & Hsp & H).
  apply bind_ok in H as ([ekps [parts' [idx2 r2]]] & Hmem & H). injection H as <- <- <-.
  pose proof (split_ok_parts _ _ _ _ _ _ Hsp) as ((A & B & C) & _).
  destruct (split_closed _ _ _ _ _ _ Hsp) as (-> & R1 & Hsp').
  destruct (Hsp' (bx kp d) r') as (r1' & E' & R1'); [rewrite (bx_length kp d len); auto|].
  rewrite Lk in *. rewrite <- L0 in R1, R1'.
  assert (PL : parts_fn (bx kp d) n t r' = map2 bx (parts_fn kp n t r) (parts_fn d n t (rng_of m0))).
  { apply parts_linear_on; auto; [congruence|congruence|]. now apply masked_on_l in HM. }
  destruct (parts_lengths kp n t r Hn) as (P1 & P2). destruct (parts_lengths d n t (rng_of m0) Hn) as (Q1 & Q2).
  rewrite Lk in P2. rewrite Ld in Q2.
  assert (PQ : length (parts_fn kp n t r) = length (parts_fn d n t (rng_of m0))) by congruence.
  destruct (members _ _ _ _ Hm _ _ _ _ _ _ _ r1' PQ P2 Q2 Hmem (masked_on_r _ _ _ _ _ _ HM R1 R1')) as (B1 & p' & ro' & B2 & B3).
  split; [intros i; rewrite B1, R1, app_length; f_equal; lia|].
  exists ro'. split; [|intros i; rewrite B3, R1', app_length; f_equal; lia].
  unfold epk, esk; rewrite encrypt_complex, E'. cbn [bind]. rewrite PL, B2. reflexivity.
Qed.

(** If no key of this length can be split at all there is nothing to show. *)
Lemma group_cases subs n t len : (forall d m, hiding (Complex subs n t) len d m) \/
  exists key r parts ro, length key = len /\ split_key_into_key_parts key n t r = Ok (parts, ro).
Proof.
  destruct (split_key_into_key_parts (zeros len) n t (fun _ => x00)) as [[p q]|e|] eqn:E.
  - right. exists (zeros len), (fun _ => x00), p, q. split; [apply repeat_length|exact E].
  - left. intros d m kp idx r kd idx' ro r' Lk H. unfold epk, esk in *; rewrite encrypt_complex in H. apply bind_ok in H as ([parts r1] & Hsp & H).
    destruct (split_closed _ _ _ _ _ _ Hsp) as (_ & _ & X). destruct (X (zeros len) (fun _ => x00)) as (q & E' & _); [|congruence].
    unfold zeros. rewrite repeat_length. congruence.
  - left. intros d m kp idx r kd idx' ro r' Lk H. unfold epk, esk in *; rewrite encrypt_complex in H. apply bind_ok in H as ([parts r1] & Hsp & H).
    destruct (split_closed _ _ _ _ _ _ Hsp) as (_ & _ & X). destruct (X (zeros len) (fun _ => x00)) as (q & E' & _); [|congruence].
    unfold zeros. rewrite repeat_length. congruence.
Qed.

Lemma hm_zero len subs : (forall len', Forall (fun p => exists m, hiding (snd p) len' (zeros len') m) subs) ->
  forall d, length d = N.to_nat (total_shares subs) -> Forall (eq (zeros len)) d -> exists m, hm len subs d m.
Proof.
  induction subs as [|[k c] subs IH]; intros HF d Ld Hd; [exists []; constructor|].
  cbn [total_shares fold_right fst] in Ld. fold (total_shares subs) in Ld.
  rewrite <- (firstn_skipn (N.to_nat k) d) in Hd |- *. apply Forall_app in Hd as [H1 H2].
  assert (L1 : length (firstn (N.to_nat k) d) = N.to_nat k) by (rewrite firstn_length; lia).
  destruct (IH (fun len' => Forall_inv_tail (HF len')) (skipn (N.to_nat k) d)) as (m2 & M2); [rewrite skipn_length; lia|exact H2|].
  destruct (Forall_inv (HF (N.to_nat k * len))) as (m1 & M1). cbn [snd] in M1.
  exists (m1 ++ m2). constructor; auto. rewrite (concat_zeros len) by exact H1. now rewrite L1.
Qed.

(** Equal keys and equal randomness. *)
Lemma same_tree c : wf_cred c -> forall len, exists m, hiding c len (zeros len) m.
Proof.
  induction c as [p|k|k|k|subs n t IH] using cred_ind'; intros HW len.
  1-3: exists []; intros kp idx r kd idx' ro r' Lk H _; rewrite bx_zeros_r by exact Lk; cbn [encrypt_key_data] in *.
  - cbn in H. injection H as <- <- <-. split; [reflexivity|]. eexists. split; reflexivity.
  - cbn in H. injection H as <- <- <-. split; [reflexivity|]. eexists. split; reflexivity.
  - destruct (box_encrypt_easy _ _ _ _ _) as [ct|]; [|discriminate]. injection H as <- <- <-. split; [reflexivity|]. eexists. split; reflexivity.
  - inversion HW.
  - inversion HW as [| | |? ? ? W1 W2 W3 W4]; subst.
    destruct (group_cases subs (total_shares subs) t len) as [X|(key & r & parts & ro & Lk & Hs)]; [exists []; apply X|].
    pose proof (split_ok_parts _ _ _ _ _ _ Hs) as ((A & B & _) & _).
    set (m0 := zeros (split_coins len (total_shares subs) t)).
    destruct (hm_zero len subs) with (d := parts_fn (zeros len) (total_shares subs) t (rng_of m0)) as (m & M).
    + intros len'. rewrite Forall_forall in *. intros p Hp. apply IH; auto.
    + apply parts_lengths. lia.
    + apply parts_zero. lia.
    + exists (m0 ++ m). apply group_hiding; auto; [apply repeat_length|lia|apply repeat_length].
Qed.

(** ** Who holds too few credentials *)

Variable D : list cred.
Definition known (c : cred) : Prop := exists d, In d D /\ matches cs c d.
Definition opaque (c : cred) : Prop := forall len d, length d = len -> exists m, hiding c len d m.

(** The members known to be satisfied. *)
Fixpoint seen_shares (subs : list (N * cred)) (bs : list bool) : N :=
  match subs, bs with
  | p :: subs, b :: bs => (if b then fst p else 0) + seen_shares subs bs
  | _, _ => 0
  end%N.
Fixpoint seen_at (off : N) (subs : list (N * cred)) (bs : list bool) : list N :=
  match subs, bs with
  | p :: subs, b :: bs =>
      (if b then map (fun i => off + N.of_nat i)%N (seq 0 (N.to_nat (fst p))) else []) ++ seen_at (off + fst p) subs bs
  | _, _ => []
  end.

Lemma seen_range : forall subs bs off i, In i (seen_at off subs bs) -> (off <= i < off + total_shares subs)%N.
Proof.
  induction subs as [|[k c] subs IH]; intros [|b bs] off i H; try contradiction.
  cbn [seen_at fst total_shares fold_right] in *. fold (total_shares subs). apply in_app_or in H as [H|H].
  - destruct b; [|contradiction]. apply in_map_iff in H as (j & <- & Hj). apply in_seq in Hj. lia.
  - apply IH in H. lia.
Qed.

Lemma seen_nodup : forall subs bs off, NoDup (seen_at off subs bs).
Proof.
  induction subs as [|[k c] subs IH]; intros [|b bs] off; try constructor. cbn [seen_at fst].
  destruct b; [|apply IH].
  assert (X : forall l, NoDup l -> (forall i, In i l -> (i < off + k)%N) -> NoDup (l ++ seen_at (off + k) subs bs)).
  { induction l as [|a l IHl]; intros ND HB; [apply IH|]. inversion ND; subst. cbn [app]. constructor.
    - intros Ha. apply in_app_or in Ha as [Ha|Ha]; [contradiction|]. apply seen_range in Ha. specialize (HB a (or_introl eq_refl)). lia.
    - apply IHl; auto. intros i Hi. apply HB. now right. }
  apply X.
  - apply FinFun.Injective_map_NoDup; [intros a b; lia|apply seq_NoDup].
  - intros i Hi. apply in_map_iff in Hi as (j & <- & Hj). apply in_seq in Hj. lia.
Qed.

Lemma seen_count : forall subs bs off, lenN (seen_at off subs bs) = seen_shares subs bs.
Proof.
  induction subs as [|[k c] subs IH]; intros [|b bs] off; try reflexivity. cbn [seen_at seen_shares fst].
  rewrite lenN_app, IH. f_equal. destruct b; [|reflexivity]. unfold lenN. rewrite map_length, seq_length. lia.
Qed.

Lemma seen_selection subs bs :
  Forall2 (fun p b => if b : bool then sat cs D (snd p) else True) subs bs ->
  exists sel, selection sel subs /\ Forall (fun p => sat cs D (snd p)) sel /\ total_shares sel = seen_shares subs bs.
Proof.
  induction 1 as [|p b subs bs H HF (sel & A & B & C)]; [exists []; repeat constructor|].
  destruct b.
  - exists (p :: sel). split; [now constructor|]. split; [now constructor|]. cbn [total_shares fold_right seen_shares]. now rewrite <- C.
  - exists sel. split; [now constructor|]. split; [auto|]. cbn [seen_shares]. now rewrite <- C.
Qed.

Lemma hm_seen len subs bs :
  Forall (fun p => wf_cred (snd p)) subs -> Forall2 (fun p b => if b : bool then True else opaque (snd p)) subs bs ->
  forall off d, length d = N.to_nat (total_shares subs) -> Forall (fun s => length s = len) d ->
    (forall i, In i (seen_at off subs bs) -> nth (N.to_nat (i - off)) d [] = zeros len) -> exists m, hm len subs d m.
Proof.
  intros HW HB. induction HB as [|[k c] b subs bs Hb HB IH]; intros off d Ld Fd Hd; [exists []; constructor|].
  inversion HW as [|? ? W1 W2]; subst. cbn [snd] in *.
  cbn [total_shares fold_right fst] in Ld. fold (total_shares subs) in Ld.
  assert (L1 : length (firstn (N.to_nat k) d) = N.to_nat k) by (rewrite firstn_length; lia).
  pose proof Fd as Fd'. rewrite <- (firstn_skipn (N.to_nat k) d) in Fd'. apply Forall_app in Fd' as [F1 F2].
  destruct (IH W2 (off + k)%N (skipn (N.to_nat k) d)) as (m2 & M2); [rewrite skipn_length; lia|exact F2| |].
  { intros i Hi. pose proof (seen_range _ _ _ _ Hi) as R. rewrite <- (Hd i) by (cbn [seen_at fst]; apply in_or_app; now right).
    rewrite <- (firstn_skipn (N.to_nat k) d) at 2. rewrite app_nth2 by lia. f_equal. lia. }
  assert (X : exists m1, hiding c (N.to_nat k * len) (concat (firstn (N.to_nat k) d)) m1).
  { destruct b.
    - rewrite (concat_zeros len).
      + rewrite L1. now apply same_tree.
      + apply Forall_forall. intros x Hx. apply (In_nth _ _ []) in Hx as (j & Hj & <-). rewrite L1 in Hj.
        rewrite <- (Hd (off + N.of_nat j)%N).
        * replace (N.to_nat (off + N.of_nat j - off)) with j by lia. rewrite <- (firstn_skipn (N.to_nat k) d) at 1. rewrite app_nth1 by lia. reflexivity.
        * cbn [seen_at fst]. apply in_or_app. left. apply in_map_iff. exists j. split; [reflexivity|]. apply in_seq. lia.
    - apply Hb. now rewrite (concat_len len), L1 by exact F1. }
  destruct X as (m1 & M1). exists (m1 ++ m2). rewrite <- (firstn_skipn (N.to_nat k) d). constructor; auto.
Qed.

Lemma tree_opaque c : wf_cred c -> (forall l, In l (leaves c) -> known l \/ opaque l) -> sat cs D c \/ opaque c.
Proof.
  induction c as [p|k|k|k|subs n t IH] using cred_ind'; intros HW HL.
  1-4: destruct (HL _ (or_introl eq_refl)) as [(d & Hd & Hm)|H]; [left; eapply sat_leaf; eauto|right; exact H].
  inversion HW as [| | |? ? ? W1 W2 W3 W4]; subst.
  assert (X : exists bs, Forall2 (fun p b => if b : bool then sat cs D (snd p) else True) subs bs /\
                         Forall2 (fun p b => if b : bool then True else opaque (snd p)) subs bs).
  { assert (Hs : Forall (fun p => sat cs D (snd p) \/ opaque (snd p)) subs).
    { rewrite Forall_forall in *. intros p Hp. apply IH; auto. intros l Hl. apply HL. cbn [leaves]. apply in_concat.
      exists (leaves (snd p)). split; auto. apply in_map_iff. eauto. }
    clear -Hs. induction Hs as [|p subs [H|H] Hs (bs & A & B)]; [exists []; split; constructor|exists (true :: bs)|exists (false :: bs)];
      split; constructor; auto. }
  destruct X as (bs & B1 & B2). destruct (N.le_gt_cases t (seen_shares subs bs)) as [Ht|Ht].
  { left. destruct (seen_selection _ _ B1) as (sel & A & B & C). eapply sat_group; eauto. lia. }
  right. intros len d Ld.
  destruct (group_cases subs (total_shares subs) t len) as [Y|(key & r & parts & ro & Lk & Hs)]; [exists []; apply Y|].
  pose proof (split_ok_parts _ _ _ _ _ _ Hs) as ((A & B & _) & _).
  destruct (hiding_mask d _ _ (seen_at 0 subs bs) _ _ _ _ Hs) as (m0 & L0 & Hz); [congruence|apply seen_nodup| |rewrite seen_count; exact Ht|].
  { apply Forall_forall. intros i Hi. apply seen_range in Hi. lia. }
  rewrite Lk in *. assert (Hn : (1 <= total_shares subs)%N) by lia.
  destruct (parts_lengths d (total_shares subs) t (rng_of m0) Hn) as (Q1 & Q2).
  destruct (hm_seen len subs bs W2 B2 0 (parts_fn d (total_shares subs) t (rng_of m0))) as (m & M); auto; [now rewrite <- Ld| |].
  - intros i Hi. rewrite N.sub_0_r. now apply Hz.
  - exists (m0 ++ m). apply group_hiding; auto.
Qed.

End Tree.

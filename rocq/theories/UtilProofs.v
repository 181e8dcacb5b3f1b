(** Proofs about the model of util.rs. *)
From Coq.Strings Require Import Byte String.
From Coq Require Import List NArith Bool Lia PeanoNat.
From Verif Require Import Base BaseFacts Text Util UtilSpec.
Import ListNotations.
Local Open Scope N_scope.

(** ** Hexadecimal digits *)

Lemma below16 (P : N -> Prop) :
  P 0 -> P 1 -> P 2 -> P 3 -> P 4 -> P 5 -> P 6 -> P 7 -> P 8 -> P 9 -> P 10 -> P 11 -> P 12 -> P 13 -> P 14 -> P 15 ->
  forall v, v < 16 -> P v.
Proof.
  intros. do 16 (destruct (N.eq_dec v 0) as [->|]; [assumption|] || idtac).
  assert (v = 0 \/ v = 1 \/ v = 2 \/ v = 3 \/ v = 4 \/ v = 5 \/ v = 6 \/ v = 7 \/ v = 8 \/ v = 9 \/ v = 10
          \/ v = 11 \/ v = 12 \/ v = 13 \/ v = 14 \/ v = 15) as D by lia.
  repeat destruct D as [->|D]; [assumption..|]. subst; assumption.
Qed.

Lemma digit_value u v : v < 16 -> hex_value (digit u v) = Some v.
Proof. revert v. destruct u; apply below16; reflexivity. Qed.

Lemma digit_not_space u v : v < 16 -> is_whitespace (digit u v) = false.
Proof. revert v. destruct u; apply below16; reflexivity. Qed.

Lemma hex_value_lt c v : hex_value c = Some v -> v < 16.
Proof.
  unfold hex_value. repeat match goal with |- context [if ?b then _ else _] => destruct b eqn:? end; intros H;
    try discriminate H; injection H as <-;
    repeat match goal with H : _ && _ = true |- _ => apply andb_true_iff in H; destruct H end;
    repeat match goal with H : (_ <=? _) = true |- _ => apply N.leb_le in H end; lia.
Qed.

Lemma hex_value_digit c v : hex_value c = Some v -> exists u, c = digit u v.
Proof.
  intros H. pose proof (hex_value_lt _ _ H) as Hv. unfold hex_value in H.
  repeat match type of H with context [if ?b then _ else _] => destruct b eqn:? end; try discriminate H;
    injection H as E;
    repeat match goal with H : _ && _ = true |- _ => apply andb_true_iff in H; destruct H end;
    repeat match goal with H : (_ <=? _) = true |- _ => apply N.leb_le in H end.
  - exists true. assert (c = 48 + v) as -> by lia. assert (v < 10) as Hl by lia. clear - Hl Hv.
    revert v Hv Hl. apply (below16 (fun v => v < 10 -> 48 + v = digit true v)); intros; try reflexivity; lia.
  - exists false. assert (c = 87 + v) as -> by lia. assert (10 <= v) as Hl by lia. clear - Hl Hv.
    revert v Hv Hl. apply (below16 (fun v => 10 <= v -> 87 + v = digit false v)); intros; try reflexivity; lia.
  - exists true. assert (c = 55 + v) as -> by lia. assert (10 <= v) as Hl by lia. clear - Hl Hv.
    revert v Hv Hl. apply (below16 (fun v => 10 <= v -> 55 + v = digit true v)); intros; try reflexivity; lia.
Qed.

Lemma hex_digit_digit v : v < 16 -> hex_digit v = digit false v.
Proof. revert v. apply below16; reflexivity. Qed.

Lemma nib_hi x : b2n x / 16 < 16.
Proof. pose proof (b2n_bound x). apply N.div_lt_upper_bound; lia. Qed.
Lemma nib_lo x : b2n x mod 16 < 16.
Proof. apply N.mod_lt. lia. Qed.

Lemma nibble_lt b i : nibble b i < 16.
Proof. unfold nibble. destruct (Nat.even i); [apply nib_hi | apply nib_lo]. Qed.

(** ** Parsing *)

Lemma byte_of_nibbles x : n2b ((0 * 16 mod 256 + b2n x / 16) * 16 mod 256 + b2n x mod 16) = x.
Proof. destruct x; reflexivity. Qed.

Lemma parse_pair u v x t :
  parse_hex_loop (digit u (b2n x / 16) :: digit v (b2n x mod 16) :: t) 0 0 =
  let* r := parse_hex_loop t 0 0 in Ok (x :: r).
Proof.
  cbn [parse_hex_loop]. rewrite (digit_not_space u) by apply nib_hi. rewrite (digit_value u) by apply nib_hi.
  change (0 + 1) with 1. change (1 =? 2) with false. change (1 =? 0) with false. cbn [andb].
  rewrite (digit_value v) by apply nib_lo. change (1 + 1 =? 2) with true. cbv beta iota.
  rewrite byte_of_nibbles. reflexivity.
Qed.

Lemma parse_complete a t b : spaced a t -> hex_of a b -> try_parse_hex_string t = Ok b.
Proof.
  unfold try_parse_hex_string. intros S. revert b. induction S; intros b H'.
  - inversion H'. reflexivity.
  - cbn [parse_hex_loop]. rewrite H. change (0 =? 0) with true. cbn [andb]. apply IHS, H'.
  - inversion H'; subst. rewrite parse_pair. rewrite (IHS b0) by assumption. reflexivity.
Qed.

Lemma nibbles_of_pair v1 v2 : v1 < 16 -> v2 < 16 ->
  let x := n2b ((0 * 16 mod 256 + v1) * 16 mod 256 + v2) in b2n x / 16 = v1 /\ b2n x mod 16 = v2.
Proof.
  intros H1 H2 x. assert (b2n x = v1 * 16 + v2) as ->.
  { unfold x. change (0 * 16 mod 256) with 0. rewrite N.add_0_l. rewrite (N.mod_small (v1 * 16)) by lia.
    apply b2n_n2b_small. lia. }
  split; [rewrite N.div_add_l by lia; rewrite (N.div_small v2) by lia; lia|].
  rewrite N.add_comm, N.mod_add by lia. apply N.mod_small. lia.
Qed.

Lemma parse_sound_n n : forall t b, (length t <= n)%nat -> try_parse_hex_string t = Ok b ->
  exists a, spaced a t /\ hex_of a b.
Proof.
  unfold try_parse_hex_string. induction n; intros [|c t] b L H; cbn [length] in L.
  1,3: injection H as <-; exists []; split; constructor. 1: lia.
  cbn [parse_hex_loop] in H. change (0 =? 0) with true in H. cbn [andb] in H.
  destruct (is_whitespace c) eqn:W.
  - destruct (IHn t b) as (a & Sa & Ha); [lia|exact H|]. exists a. split; [constructor; assumption|assumption].
  - destruct (hex_value c) as [v1|] eqn:V1; [|discriminate H].
    change (0 + 1 =? 2) with false in H. cbv beta iota in H.
    destruct t as [|c2 t]; [cbn in H; discriminate H|]. cbn [parse_hex_loop] in H.
    change (0 + 1 =? 0) with false in H. cbn [andb] in H.
    destruct (hex_value c2) as [v2|] eqn:V2; [|discriminate H].
    change (0 + 1 + 1 =? 2) with true in H. cbv beta iota in H.
    apply bind_ok in H as (r & Hr & E). injection E as <-.
    destruct (IHn t r) as (a & Sa & Ha); [cbn [length] in L; lia|exact Hr|].
    destruct (hex_value_digit _ _ V1) as [u1 ->], (hex_value_digit _ _ V2) as [u2 ->].
    pose proof (hex_value_lt _ _ V1) as B1. pose proof (hex_value_lt _ _ V2) as B2.
    destruct (nibbles_of_pair v1 v2 B1 B2) as [E1 E2].
    exists (digit u1 v1 :: digit u2 v2 :: a). split; [constructor; assumption|].
    match goal with |- hex_of _ (?y :: _) => assert (b2n y / 16 = v1) as F1 by exact E1;
      assert (b2n y mod 16 = v2) as F2 by exact E2; generalize dependent y end.
    intros y F1 F2. rewrite <- F1, <- F2. constructor. assumption.
Qed.

Lemma parse_sound t b : try_parse_hex_string t = Ok b -> exists a, spaced a t /\ hex_of a b.
Proof. apply (parse_sound_n (length t)). lia. Qed.

Lemma hex_of_nospace a b : hex_of a b -> remove_whitespace a = a.
Proof.
  induction 1; [reflexivity|]. unfold remove_whitespace in *. cbn [filter].
  rewrite (digit_not_space u) by apply nib_hi. cbn [negb].
  rewrite (digit_not_space v) by apply nib_lo. cbn [negb]. now rewrite IHhex_of.
Qed.

Lemma spaced_remove a t : spaced a t -> remove_whitespace a = a -> remove_whitespace t = a.
Proof.
  unfold remove_whitespace. intros S. induction S; intros E.
  - reflexivity.
  - cbn [filter]. rewrite H. cbn [negb]. auto.
  - cbn [filter] in E |- *.
    assert (forall l : text, (length (filter (fun c => negb (is_whitespace c)) l) <= length l)%nat) as L.
    { induction l as [|z l IHl]; cbn [filter length]; [auto|]. destruct (negb (is_whitespace z)); cbn [length]; [apply le_n_S|apply le_S]; exact IHl. }
    pose proof (L a) as La.
    destruct (negb (is_whitespace x)), (negb (is_whitespace y));
      try (apply (f_equal (@length _)) in E; cbn [length] in E; lia).
    injection E as E. rewrite IHS by exact E. reflexivity.
Qed.

Lemma text_eqb_eq a b : text_eqb a b = true <-> a = b.
Proof.
  revert b. induction a; intros [|c b]; cbn [text_eqb]; split; intros H; try reflexivity; try discriminate H.
  - apply andb_true_iff in H as [H1 H2]. apply N.eqb_eq in H1 as ->. apply IHa in H2 as ->. reflexivity.
  - injection H as -> ->. rewrite N.eqb_refl. cbn. now apply IHa.
Qed.

Lemma hex_of_length a b : hex_of a b -> length a = (2 * length b)%nat.
Proof. induction 1; cbn [length]; lia. Qed.

Lemma hex_of_inj a b b' : hex_of a b -> hex_of a b' -> b = b'.
Proof.
  intros H H'. pose proof (parse_complete a a b) as P. pose proof (parse_complete a a b') as P'.
  assert (spaced a a) as S by (clear - H; induction H; constructor; assumption).
  rewrite (P S H) in P'. specialize (P' S H'). now injection P'.
Qed.

(** ** The checksummed text *)

Lemma to_hex_nth b i : (i < 2 * length b)%nat -> nth i (to_hex_string b) 0 = digit false (nibble b i).
Proof.
  revert i. induction b as [|x b IH]; intros i L; cbn [length] in L; [lia|].
  unfold to_hex_string. cbn [map concat app].
  destruct i as [|[|i]]; cbn [nth].
  - unfold nibble. cbn [Nat.div2 Nat.even nth]. apply hex_digit_digit, nib_hi.
  - unfold nibble. cbn [Nat.div2 Nat.even nth]. apply hex_digit_digit, nib_lo.
  - fold (to_hex_string b). rewrite IH by lia. unfold nibble. reflexivity.
Qed.

Lemma to_hex_length b : length (to_hex_string b) = (2 * length b)%nat.
Proof. unfold to_hex_string. induction b; cbn [map concat app length]; [reflexivity|]. rewrite IHb. lia. Qed.

Lemma checksum_case_digit v w : v < 16 -> w < 16 ->
  checksum_case (digit false v) (digit false w) = digit (8 <=? w) v.
Proof.
  intros Hv Hw. revert v Hv. revert w Hw. apply (below16 (fun w => forall v, v < 16 -> _ = _)); apply below16; reflexivity.
Qed.

(** [zip_cycle] reads the hash cyclically. *)
Lemma zip_cycle_nth all k : all <> [] -> forall t i, (i < length t)%nat -> (k <= length all)%nat ->
  nth i (zip_cycle all (skipn k all) t) 0 =
  checksum_case (nth i t 0) (nth (Nat.modulo (k + i) (length all)) all 0).
Proof.
  intros N t. revert k. induction t as [|c t IH]; intros k i L Lk; cbn [length] in L; [lia|].
  assert (length all <> 0%nat) as NZ by (destruct all; [congruence|cbn; lia]).
  destruct (Nat.eq_dec k (length all)) as [->|Nk].
  - rewrite skipn_all. cbn [zip_cycle]. destruct all as [|h all'] eqn:E; [congruence|].
    rewrite <- E in *. assert (all' = skipn 1 all) as Es by (rewrite E; reflexivity).
    destruct i as [|i]; cbn [nth].
    + rewrite Nat.add_0_r, Nat.mod_same by assumption. rewrite E. reflexivity.
    + rewrite Es. rewrite IH by lia. do 2 f_equal.
      replace (length all + S i)%nat with (1 + i + 1 * length all)%nat by lia.
      now rewrite Nat.mod_add.
  - destruct (skipn k all) as [|h r] eqn:E.
    { apply (f_equal (@length _)) in E. rewrite skipn_length in E. cbn in E. lia. }
    cbn [zip_cycle].
    assert (all = firstn k all ++ h :: r) as Ea by (rewrite <- E; symmetry; apply firstn_skipn).
    assert (length (firstn k all) = k) as Lf by (apply firstn_length_le; lia).
    assert (h = nth k all 0) as Eh.
    { rewrite Ea. rewrite app_nth2 by lia. rewrite Lf, Nat.sub_diag. reflexivity. }
    assert (r = skipn (S k) all) as Er.
    { rewrite Ea. rewrite skipn_app, Lf. rewrite skipn_all2 by lia. replace (S k - k)%nat with 1%nat by lia. reflexivity. }
    destruct i as [|i]; cbn [nth].
    + rewrite Nat.add_0_r, Nat.mod_small by lia. now rewrite Eh.
    + rewrite Er. rewrite IH by lia. do 2 f_equal. f_equal. lia.
Qed.

Lemma zip_cycle_length all cur t : all <> [] -> length (zip_cycle all cur t) = length t.
Proof.
  intros N. revert cur. induction t; intros cur; [reflexivity|]. cbn [zip_cycle length].
  destruct cur; [destruct all; [congruence|]|]; cbn [length]; now rewrite IHt.
Qed.

Lemma nth_map_seq {A} (f : nat -> A) n i d : (i < n)%nat -> nth i (map f (seq 0 n)) d = f i.
Proof.
  intros L. rewrite nth_indep with (d' := f 0%nat) by (now rewrite map_length, seq_length).
  rewrite (map_nth f). now rewrite seq_nth.
Qed.

Lemma checksummed_model sha b : sha b <> [] ->
  to_hex_string_checksummed sha b = checksummed_text (sha b) b.
Proof.
  intros N. unfold to_hex_string_checksummed.
  assert (to_hex_string (sha b) <> []) as Nh.
  { intros E. apply (f_equal (@length _)) in E. rewrite to_hex_length in E. destruct (sha b); [congruence|cbn in E; lia]. }
  assert (length (sha b) <> 0%nat) as NZ by (destruct (sha b); [congruence|cbn; lia]).
  apply (list_ext 0).
  - rewrite zip_cycle_length by assumption. unfold checksummed_text. now rewrite map_length, seq_length, to_hex_length.
  - intros i L. rewrite zip_cycle_length in L by assumption. rewrite to_hex_length in L.
    change (to_hex_string (sha b)) with (skipn 0 (to_hex_string (sha b))) at 2.
    rewrite zip_cycle_nth; [|assumption|now rewrite to_hex_length|lia].
    rewrite Nat.add_0_l, to_hex_length. rewrite to_hex_nth by assumption.
    assert (Nat.modulo i (2 * length (sha b)) < 2 * length (sha b))%nat as M by (apply Nat.mod_upper_bound; lia).
    rewrite to_hex_nth by assumption.
    rewrite checksum_case_digit by apply nibble_lt.
    unfold checksummed_text.
    rewrite nth_map_seq by assumption. reflexivity.
Qed.

Lemma checksummed_hex_of (f : nat -> bool) b :
  hex_of (map (fun i => digit (f i) (nibble b i)) (seq 0 (2 * length b))) b.
Proof.
  revert f. induction b as [|x b IH]; intros f; [constructor|].
  replace (2 * length (x :: b))%nat with (S (S (2 * length b))) by (cbn [length]; lia).
  cbn [seq map]. rewrite <- !seq_shift, !map_map.
  unfold nibble at 1 2. cbn [Nat.div2 Nat.even nth]. constructor.
  apply (IH (fun i => f (S (S i)))).
Qed.

Lemma checksummed_spells hash b : hex_of (checksummed_text hash b) b.
Proof. apply (checksummed_hex_of (fun i => 8 <=? nibble hash (Nat.modulo i (2 * length hash)))). Qed.

Lemma checksummed_exact sha t b : sha b <> [] ->
  try_parse_hex_string_checksummed sha t = Ok b <-> spaced (checksummed_text (sha b) b) t.
Proof.
  intros N. unfold try_parse_hex_string_checksummed. split.
  - intros H. apply bind_ok in H as (b' & Hp & H).
    destruct (text_eqb _ _) eqn:E; cbn [negb] in H; [|discriminate H]. injection H as ->.
    apply text_eqb_eq in E. destruct (parse_sound _ _ Hp) as (a & Sa & Ha).
    rewrite (spaced_remove a t Sa (hex_of_nospace _ _ Ha)) in E.
    rewrite checksummed_model in E by assumption. now rewrite E.
  - intros S. pose proof (checksummed_spells (sha b) b) as Hs.
    rewrite (parse_complete _ _ _ S Hs). cbn [bind].
    rewrite (spaced_remove _ t S (hex_of_nospace _ _ Hs)). rewrite checksummed_model by assumption.
    assert (text_eqb (checksummed_text (sha b) b) (checksummed_text (sha b) b) = true) as -> by now apply text_eqb_eq.
    reflexivity.
Qed.

(** ** Letter case does not change what a text spells *)

Lemma hex_value_lower c : hex_value (ascii_lower c) = hex_value c.
Proof.
  unfold ascii_lower. destruct (_ && _) eqn:E; [|reflexivity].
  apply andb_true_iff in E as [E1 E2]. apply N.leb_le in E1, E2. unfold hex_value.
  repeat (match goal with |- context [?a <=? ?b] => destruct (N.leb_spec a b); [try (exfalso; lia)|try (exfalso; lia)] end);
    cbn [andb]; try reflexivity; f_equal; lia.
Qed.

Lemma letter_not_space c : 33 <= c -> c <= 126 -> is_whitespace c = false.
Proof.
  intros H1 H2. unfold is_whitespace.
  repeat (match goal with |- context [?a <=? ?b] => destruct (N.leb_spec a b); [try (exfalso; lia)|try (exfalso; lia)] end);
  repeat (match goal with |- context [?a =? ?b] => destruct (N.eqb_spec a b); [try (exfalso; lia)|try (exfalso; lia)] end); reflexivity.
Qed.

Lemma space_lower c : is_whitespace (ascii_lower c) = is_whitespace c.
Proof.
  unfold ascii_lower. destruct (_ && _) eqn:E; [|reflexivity].
  apply andb_true_iff in E as [E1 E2]. apply N.leb_le in E1, E2. now rewrite !letter_not_space by lia.
Qed.

Lemma whitespace_no_case c : is_whitespace c = true -> ascii_lower c = c.
Proof.
  intros Hd. unfold ascii_lower. destruct (_ && _) eqn:F; [|reflexivity].
  apply andb_true_iff in F as [E1 E2]. apply N.leb_le in E1, E2. rewrite letter_not_space in Hd by lia. discriminate Hd.
Qed.

Lemma parse_lower t t' acc cnt b : map ascii_lower t = map ascii_lower t' ->
  parse_hex_loop t acc cnt = Ok b -> parse_hex_loop t' acc cnt = Ok b.
Proof.
  revert t' acc cnt b. induction t as [|c t IH]; intros [|c' t'] acc cnt b E H; try discriminate E; [exact H|].
  cbn [map] in E. injection E as Ec Et. cbn [parse_hex_loop] in H |- *.
  rewrite <- (space_lower c'), <- Ec, space_lower. rewrite <- (hex_value_lower c'), <- Ec, hex_value_lower.
  destruct ((cnt =? 0) && is_whitespace c); [eauto|].
  destruct (hex_value c); [|discriminate H].
  destruct (cnt + 1 =? 2); [|eauto].
  apply bind_ok in H as (r & Hr & Er). injection Er as <-. rewrite (IH _ _ _ _ Et Hr). reflexivity.
Qed.

Lemma remove_lower t t' : map ascii_lower t = map ascii_lower t' ->
  remove_whitespace t = remove_whitespace t' -> t = t'.
Proof.
  revert t'. induction t as [|c t IH]; intros [|c' t'] E R; try discriminate E; [reflexivity|].
  cbn [map] in E. injection E as Ec Et. unfold remove_whitespace in R. cbn [filter] in R.
  assert (is_whitespace c' = is_whitespace c) as Ws by (rewrite <- (space_lower c'), <- Ec, space_lower; reflexivity).
  rewrite Ws in R. destruct (is_whitespace c) eqn:W; cbn [negb] in R.
  - rewrite (whitespace_no_case c W), (whitespace_no_case c' Ws) in Ec. f_equal; [exact Ec|exact (IH t' Et R)].
  - injection R as -> R. f_equal. exact (IH t' Et R).
Qed.

Lemma altered_case sha t t' b :
  try_parse_hex_string_checksummed sha t = Ok b ->
  map ascii_lower t' = map ascii_lower t -> t' <> t ->
  try_parse_hex_string_checksummed sha t' = Err (InvalidChecksum b).
Proof.
  intros H E N. unfold try_parse_hex_string_checksummed in *.
  apply bind_ok in H as (b' & Hp & H).
  destruct (text_eqb _ _) eqn:T; cbn [negb] in H; [|discriminate H]. injection H as ->. apply text_eqb_eq in T.
  unfold try_parse_hex_string in *. rewrite (parse_lower _ t' _ _ _ (eq_sym E) Hp). cbn [bind].
  destruct (text_eqb _ (remove_whitespace t')) eqn:T'; [|reflexivity]. exfalso. apply text_eqb_eq in T'.
  rewrite T in T'. apply N. symmetry. exact (remove_lower t t' (eq_sym E) T').
Qed.

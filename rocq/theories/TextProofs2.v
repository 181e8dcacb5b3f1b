(** More about UTF-8: decoding is sound, characters are recognised byte by byte. *)
From Coq.Strings Require Import Byte.
From Coq Require Import List NArith Bool Lia PeanoNat.
From Verif Require Import Base BaseFacts Text TextProofs.
Import ListNotations.
Local Open Scope N_scope.

Lemma add_char_valid c r t : add_char c r = Valid t -> exists t', r = Valid t' /\ t = c :: t'.
Proof. destruct r; cbn [add_char]; intros H; try discriminate H. injection H as <-. eauto. Qed.

Lemma cont_range b : cont b = true -> 128 <= b2n b <= 191.
Proof. apply between_spec. Qed.

Lemma n2b_sum a b x : b2n x = a + b -> n2b (a + b) = x.
Proof. intros <-. apply n2b_b2n. Qed.

Lemma div64 q r : r < 64 -> (q * 64 + r) / 64 = q.
Proof. intros L. rewrite N.div_add_l by lia. rewrite N.div_small by lia. lia. Qed.
Lemma mod64 q r : r < 64 -> (q * 64 + r) mod 64 = r.
Proof. intros L. rewrite N.add_comm, N.mod_add by lia. apply N.mod_small. lia. Qed.

Lemma decode_sound_n n : forall b t, (length b <= n)%nat -> from_utf8 b = Valid t -> Forall scalar t /\ utf8 t = b.
Proof.
  induction n as [|n IH]; intros [|b0 l1] t L H; cbn [length] in L.
  1,3: injection H as <-; split; [constructor|reflexivity]. 1: lia.
  rewrite from_utf8_step in H. cbv zeta in H.
  pose proof (b2n_bound b0) as B0.
  destruct (N.ltb_spec (b2n b0) 128) as [L0|L0].
  { apply add_char_valid in H as (t' & H & ->). destruct (IH l1 t' ltac:(lia) H) as [S U].
    split; [constructor; [unfold scalar; lia|assumption]|]. unfold utf8 in *. cbn [map concat]. rewrite U.
    unfold encode_char. rewrite (proj2 (N.ltb_lt _ _)) by lia. rewrite n2b_b2n. reflexivity. }
  destruct (between 194 223 b0) eqn:C2.
  { apply between_spec in C2. destruct l1 as [|b1 l2]; [discriminate H|]. destruct (cont b1) eqn:K1; [|discriminate H].
    apply cont_range in K1. apply add_char_valid in H as (t' & H & ->). cbn [length] in L.
    destruct (IH l2 t' ltac:(lia) H) as [S U].
    set (q := b2n b0 - 192) in *. set (r := b2n b1 - 128) in *.
    split; [constructor; [unfold scalar; lia|assumption]|]. unfold utf8 in *. cbn [map concat]. rewrite U.
    unfold encode_char. rewrite (proj2 (N.ltb_ge _ _)) by lia. rewrite (proj2 (N.ltb_lt _ 2048)) by lia.
    rewrite div64, mod64 by lia. rewrite (n2b_sum 192 q b0), (n2b_sum 128 r b1) by lia. reflexivity. }
  destruct (between 224 239 b0) eqn:C3.
  { apply between_spec in C3. destruct l1 as [|b1 l2]; [discriminate H|].
    destruct (second_ok b0 b1) eqn:K1; [|discriminate H].
    assert (128 <= b2n b1 <= 191 /\ (b2n b0 = 224 -> 160 <= b2n b1) /\ (b2n b0 = 237 -> b2n b1 <= 159)) as (R1 & R2 & R3).
    { unfold second_ok in K1. destruct (N.eqb_spec (b2n b0) 224); [apply between_spec in K1; lia|].
      destruct (N.eqb_spec (b2n b0) 237); [apply between_spec in K1; lia|].
      destruct (N.eqb_spec (b2n b0) 240); [lia|]. destruct (N.eqb_spec (b2n b0) 244); [lia|]. apply cont_range in K1. lia. }
    destruct l2 as [|b2 l3]; [discriminate H|]. destruct (cont b2) eqn:K2; [|discriminate H].
    apply cont_range in K2. apply add_char_valid in H as (t' & H & ->). cbn [length] in L.
    destruct (IH l3 t' ltac:(lia) H) as [S U].
    set (q := b2n b0 - 224) in *. set (r1 := b2n b1 - 128) in *. set (r2 := b2n b2 - 128) in *.
    split; [constructor; [unfold scalar; lia|assumption]|]. unfold utf8 in *. cbn [map concat]. rewrite U.
    unfold encode_char. rewrite (proj2 (N.ltb_ge _ 128)) by lia. rewrite (proj2 (N.ltb_ge _ 2048)) by lia.
    rewrite (proj2 (N.ltb_lt _ 65536)) by lia.
    replace (q * 4096 + r1 * 64 + r2) with ((q * 64 + r1) * 64 + r2) by lia.
    change 4096 with (64 * 64). rewrite <- N.div_div by lia. rewrite !div64, !mod64 by lia.
    rewrite (n2b_sum 224 q b0), (n2b_sum 128 r1 b1), (n2b_sum 128 r2 b2) by lia. reflexivity. }
  destruct (between 240 244 b0) eqn:C4; [|discriminate H].
  apply between_spec in C4. destruct l1 as [|b1 l2]; [discriminate H|].
  destruct (second_ok b0 b1) eqn:K1; [|discriminate H].
  assert (128 <= b2n b1 <= 191 /\ (b2n b0 = 240 -> 144 <= b2n b1) /\ (b2n b0 = 244 -> b2n b1 <= 143)) as (R1 & R2 & R3).
  { unfold second_ok in K1. destruct (N.eqb_spec (b2n b0) 224); [lia|]. destruct (N.eqb_spec (b2n b0) 237); [lia|].
    destruct (N.eqb_spec (b2n b0) 240); [apply between_spec in K1; lia|].
    destruct (N.eqb_spec (b2n b0) 244); [apply between_spec in K1; lia|]. apply cont_range in K1. lia. }
  destruct l2 as [|b2 l3]; [discriminate H|]. destruct (cont b2) eqn:K2; [|discriminate H]. apply cont_range in K2.
  destruct l3 as [|b3 l4]; [discriminate H|]. destruct (cont b3) eqn:K3; [|discriminate H]. apply cont_range in K3.
  apply add_char_valid in H as (t' & H & ->). cbn [length] in L.
  destruct (IH l4 t' ltac:(lia) H) as [S U].
  set (q := b2n b0 - 240) in *. set (r1 := b2n b1 - 128) in *. set (r2 := b2n b2 - 128) in *. set (r3 := b2n b3 - 128) in *.
  split; [constructor; [unfold scalar; lia|assumption]|]. unfold utf8 in *. cbn [map concat]. rewrite U.
  unfold encode_char. rewrite (proj2 (N.ltb_ge _ 128)) by lia. rewrite (proj2 (N.ltb_ge _ 2048)) by lia.
  rewrite (proj2 (N.ltb_ge _ 65536)) by lia.
  replace (q * 262144 + r1 * 4096 + r2 * 64 + r3) with (((q * 64 + r1) * 64 + r2) * 64 + r3) by lia.
  change 262144 with (64 * (64 * 64)). change 4096 with (64 * 64). rewrite <- !N.div_div by lia. rewrite !div64, !mod64 by lia.
  rewrite (n2b_sum 240 q b0), (n2b_sum 128 r1 b1), (n2b_sum 128 r2 b2), (n2b_sum 128 r3 b3) by lia. reflexivity.
Qed.

Lemma decode_sound b t : from_utf8 b = Valid t -> Forall scalar t /\ utf8 t = b.
Proof. apply (decode_sound_n (length b)). lia. Qed.

Lemma utf8_inj t u : Forall scalar t -> Forall scalar u -> utf8 t = utf8 u -> t = u.
Proof.
  intros St Su E. pose proof (from_utf8_utf8 t St) as H. rewrite E, from_utf8_utf8 in H by assumption. now injection H.
Qed.

(** The beginning of a character is recognised as such. *)
Lemma incomplete_prefix c k : scalar c -> (0 < k < length (encode_char c))%nat ->
  from_utf8 (firstn k (encode_char c)) = Incomplete.
Proof.
  intros Sc. unfold encode_char.
  destruct (N.ltb_spec c 128) as [L1|L1]; [|destruct (N.ltb_spec c 2048) as [L2|L2];
    [|destruct (N.ltb_spec c 65536) as [L3|L3]]]; cbn [length]; intros Lk.
  - lia.
  - assert (k = 1%nat) as -> by lia. cbn [firstn]. rewrite from_utf8_step. cbv zeta.
    assert (2 <= c / 64 < 32) as Q by (split; [apply N.div_le_lower_bound|apply N.div_lt_upper_bound]; lia).
    revert Q. generalize (c / 64). intros q Q.
    rewrite b2n_n2b_small by lia. rewrite !between_n2b by lia. decide_n. reflexivity.
  - pose proof (N.div_mod c 64 ltac:(lia)) as E. pose proof (N.mod_lt c 64 ltac:(lia)) as M.
    pose proof (N.div_mod (c / 64) 64 ltac:(lia)) as E2. pose proof (N.mod_lt (c / 64) 64 ltac:(lia)) as M2.
    replace (c / 4096) with (c / 64 / 64) by (rewrite N.div_div by lia; reflexivity).
    revert E M E2 M2. generalize (c / 64) (c mod 64) (c / 64 mod 64) (c / 64 / 64). intros q r r2 q2 E M E2 M2.
    assert (k = 1%nat \/ k = 2%nat) as [->| ->] by lia; cbn [firstn]; rewrite from_utf8_step; cbv zeta;
      rewrite ?b2n_n2b_small by lia; rewrite !between_n2b by lia.
    + decide_n. reflexivity.
    + unfold second_ok. rewrite !b2n_n2b_small by lia. rewrite !between_n2b by lia. rewrite (cont_n2b r2) by lia.
      assert ((if 224 + q2 =? 224 then (160 <=? 128 + r2) && (128 + r2 <=? 191) else
             if 224 + q2 =? 237 then (128 <=? 128 + r2) && (128 + r2 <=? 159) else true) = true) as K.
      { destruct (N.eqb_spec (224 + q2) 224); [apply andb_true_iff; split; apply N.leb_le; lia|].
        destruct (N.eqb_spec (224 + q2) 237); [|reflexivity].
        destruct Sc; apply andb_true_iff; split; apply N.leb_le; lia. }
      rewrite (proj2 (N.eqb_neq (224 + q2) 240)), (proj2 (N.eqb_neq (224 + q2) 244)) by lia. rewrite K.
      decide_n. reflexivity.
  - pose proof (N.div_mod c 64 ltac:(lia)) as E. pose proof (N.mod_lt c 64 ltac:(lia)) as M.
    pose proof (N.div_mod (c / 64) 64 ltac:(lia)) as E2. pose proof (N.mod_lt (c / 64) 64 ltac:(lia)) as M2.
    pose proof (N.div_mod (c / 64 / 64) 64 ltac:(lia)) as E3. pose proof (N.mod_lt (c / 64 / 64) 64 ltac:(lia)) as M3.
    replace (c / 262144) with (c / 64 / 64 / 64) by (rewrite !N.div_div by lia; reflexivity).
    replace (c / 4096) with (c / 64 / 64) by (rewrite N.div_div by lia; reflexivity).
    revert E M E2 M2 E3 M3. generalize (c / 64) (c mod 64) (c / 64 mod 64) (c / 64 / 64) (c / 64 / 64 mod 64) (c / 64 / 64 / 64).
    intros q r r2 q2 r3 q3 E M E2 M2 E3 M3.
    assert (c < 1114112) as Lc by (destruct Sc; lia).
    assert ((if 240 + q3 =? 240 then (144 <=? 128 + r3) && (128 + r3 <=? 191) else
             if 240 + q3 =? 244 then (128 <=? 128 + r3) && (128 + r3 <=? 143) else true) = true) as K.
    { destruct (N.eqb_spec (240 + q3) 240); [apply andb_true_iff; split; apply N.leb_le; lia|].
      destruct (N.eqb_spec (240 + q3) 244); [|reflexivity]. apply andb_true_iff; split; apply N.leb_le; lia. }
    assert (k = 1%nat \/ k = 2%nat \/ k = 3%nat) as D by lia.
    destruct D as [->|D]; [|destruct D as [->| ->]]; cbn [firstn]; rewrite from_utf8_step; cbv zeta;
      rewrite ?b2n_n2b_small by lia; rewrite !between_n2b by lia.
    + decide_n. reflexivity.
    + unfold second_ok. rewrite !b2n_n2b_small by lia. rewrite !between_n2b by lia. rewrite (cont_n2b r3) by lia.
      rewrite (proj2 (N.eqb_neq (240 + q3) 224)), (proj2 (N.eqb_neq (240 + q3) 237)) by lia. rewrite K.
      decide_n. reflexivity.
    + unfold second_ok. rewrite !b2n_n2b_small by lia. rewrite !between_n2b by lia. rewrite (cont_n2b r3), (cont_n2b r2) by lia.
      rewrite (proj2 (N.eqb_neq (240 + q3) 224)), (proj2 (N.eqb_neq (240 + q3) 237)) by lia. rewrite K.
      decide_n. reflexivity.
Qed.

(** A line feed byte occurs only as the character. *)
Lemma encode_lf : encode_char 10 = [x0a].
Proof. reflexivity. Qed.

Lemma utf8_lf t : Forall scalar t -> In x0a (utf8 t) -> In 10 t.
Proof.
  intros S. induction S as [|c t Hc S IH]; intros I; [destruct I|]. unfold utf8 in I. cbn [map concat] in I.
  apply in_app_or in I as [I|I]; [left|right; apply IH, I].
  unfold encode_char in I.
  assert (forall n, n < 256 -> n2b n = x0a -> n = 10) as B.
  { intros n L E. apply (f_equal b2n) in E. rewrite b2n_n2b_small in E by assumption. exact E. }
  assert (forall m, n2b (128 + m mod 64) = x0a -> False) as M.
  { intros m E. pose proof (N.mod_lt m 64 ltac:(lia)) as H. revert E H. generalize (m mod 64). intros k E H.
    apply B in E; lia. }
  assert (forall a k bound, k < bound -> 10 < a -> a + bound <= 256 -> n2b (a + k) = x0a -> False) as Q.
  { intros a k bound L1 L2 L3 E. apply B in E; lia. }
  destruct (N.ltb_spec c 128) as [L1|L1]; [|destruct (N.ltb_spec c 2048) as [L2|L2];
    [|destruct (N.ltb_spec c 65536) as [L3|L3]]].
  - destruct I as [I|[]]. apply B in I; lia.
  - assert (c / 64 < 32) as H by (apply N.div_lt_upper_bound; lia).
    destruct I as [I|[I|[]]]; [destruct (Q 192 _ 32 H ltac:(lia) ltac:(lia) I)|destruct (M _ I)].
  - assert (c / 4096 < 16) as H by (apply N.div_lt_upper_bound; lia).
    destruct I as [I|[I|[I|[]]]]; [destruct (Q 224 _ 16 H ltac:(lia) ltac:(lia) I)|destruct (M _ I)|destruct (M _ I)].
  - assert (c / 262144 < 8) as H by (apply N.div_lt_upper_bound; destruct Hc; lia).
    destruct I as [I|[I|[I|[I|[]]]]]; [destruct (Q 240 _ 8 H ltac:(lia) ltac:(lia) I)|destruct (M _ I)|destruct (M _ I)|destruct (M _ I)].
Qed.

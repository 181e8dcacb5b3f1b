(** Proofs about human readable durations and sizes. *)
From Coq.Strings Require Import Byte String.
From Coq Require Import List NArith Bool Lia PeanoNat.
From Verif Require Import Base BaseFacts Text Util UtilSpec.
Import ListNotations.
Local Open Scope N_scope.

Lemma decimal_from_snoc t a x d : decimal_from a t = Some x -> d < 10 ->
  decimal_from a (t ++ [48 + d]) = Some (10 * x + d).
Proof.
  revert a. induction t as [|c t IH]; intros a H D; cbn [decimal_from app] in *.
  - injection H as ->. assert ((48 <=? 48 + d) && (48 + d <=? 57) = true) as ->.
    { apply andb_true_iff. split; apply N.leb_le; lia. }
    f_equal. lia.
  - destruct (_ && _); [|discriminate H]. apply IH; assumption.
Qed.

Lemma denotes_digit d : d < 10 -> denotes [48 + d] d.
Proof.
  intros D. split; [discriminate|]. split.
  - cbn [decimal_from]. assert ((48 <=? 48 + d) && (48 + d <=? 57) = true) as ->.
    { apply andb_true_iff. split; apply N.leb_le; lia. }
    f_equal. lia.
  - cbn [hd]. intros ->. reflexivity.
Qed.

Lemma denotes_snoc t x d : denotes t x -> 0 < x -> d < 10 -> denotes (t ++ [48 + d]) (10 * x + d).
Proof.
  intros (N & V & Z) P D. split; [destruct t; discriminate|]. split.
  - apply decimal_from_snoc; assumption.
  - destruct t as [|c t]; [congruence|]. cbn [hd app] in *. intros E. specialize (Z E).
    injection Z as -> ->. cbn in V. injection V as <-. lia.
Qed.

Lemma dec_fuel_spec fuel : forall n acc, n < 2 ^ N.of_nat fuel -> fuel <> O ->
  exists t, dec_fuel fuel n acc = t ++ acc /\ denotes t n.
Proof.
  induction fuel as [|f IH]; intros n acc L NZ; [congruence|]. cbn [dec_fuel].
  assert (n mod 10 < 10) as D by (apply N.mod_lt; lia).
  pose proof (N.div_mod n 10) as E. specialize (E ltac:(lia)).
  destruct (N.eqb_spec (n / 10) 0) as [Z|Z].
  - exists [48 + n mod 10]. split; [reflexivity|].
    assert (n mod 10 = n) as En by (rewrite Z in E; lia). rewrite En. rewrite En in D. now apply denotes_digit.
  - assert (n / 10 < 2 ^ N.of_nat f) as Lf.
    { rewrite Nat2N.inj_succ, N.pow_succ_r' in L. revert E L D. generalize (n / 10) (n mod 10) (2 ^ N.of_nat f). intros; lia. }
    assert (f <> O) as Nf.
    { intros ->. change (2 ^ N.of_nat 0) with 1 in Lf. lia. }
    destruct (IH (n / 10) ((48 + n mod 10) :: acc) Lf Nf) as (t & Et & Ht).
    exists (t ++ [48 + n mod 10]). split; [rewrite Et, <- app_assoc; reflexivity|].
    rewrite E at 2. apply denotes_snoc; [assumption|lia|assumption].
Qed.

Lemma dec_spec n : denotes (dec n) n.
Proof.
  unfold dec. destruct (dec_fuel_spec (S (N.size_nat n)) n []) as (t & Et & Ht); [|discriminate|].
  - rewrite Nat2N.inj_succ, N.pow_succ_r'.
    assert (n < 2 ^ N.of_nat (N.size_nat n)) as H.
    { destruct n as [|p]; [cbn; lia|]. cbn [N.size_nat].
      induction p; cbn [Pos.size_nat]; rewrite ?Nat2N.inj_succ, ?N.pow_succ_r'; lia. }
    lia.
  - rewrite app_nil_r in Et. now rewrite Et.
Qed.

(** There is one numeral for each number. *)
Lemma decimal_grows t : forall a n, decimal_from a t = Some n -> a <= n.
Proof.
  induction t as [|c t IH]; cbn [decimal_from]; intros a n H; [injection H as ->; lia|]. destruct (_ && _); [|discriminate H]. specialize (IH _ _ H). lia.
Qed.
Lemma decimal_last t c : forall a n, decimal_from a (t ++ [c]) = Some n -> exists m, decimal_from a t = Some m /\ 48 <= c <= 57 /\ n = 10 * m + (c - 48).
Proof.
  induction t as [|x t IH]; cbn [decimal_from app]; intros a n H.
  - destruct ((48 <=? c) && (c <=? 57)) eqn:E; [|discriminate H]. assert (n = 10 * a + (c - 48)) as -> by congruence. apply andb_prop in E as [E1 E2]. apply N.leb_le in E1, E2. exists a. split; [reflexivity|]. lia.
  - destruct (_ && _); [|discriminate H]. apply IH, H.
Qed.
Lemma decimal_positive c t n : decimal_from 0 (c :: t) = Some n -> c <> 48 -> 0 < n.
Proof.
  cbn [decimal_from]. destruct ((48 <=? c) && (c <=? 57)) eqn:E; [|discriminate]. apply andb_prop in E as [E1 _]. apply N.leb_le in E1. intros H N. apply decimal_grows in H. lia.
Qed.
Lemma decimal_unique : forall t t' n, decimal_from 0 t = Some n -> decimal_from 0 t' = Some n -> hd 0 t <> 48 -> hd 0 t' <> 48 -> t = t'.
Proof.
  assert (P : forall t c, hd 0 (t ++ [c]) <> 48 -> hd 0 t <> 48) by (intros [|x t] c; cbn; [discriminate|auto]).
  assert (Z : forall t, decimal_from 0 t = Some 0 -> hd 0 t <> 48 -> t = []).
  { intros [|c t] H N; [reflexivity|]. apply decimal_positive in H; [lia|exact N]. }
  induction t as [|c t IH] using rev_ind; intros t' n H H' N N'.
  - injection H as <-. symmetry. apply Z; assumption.
  - destruct t' as [|c' t' _] using rev_ind; [injection H' as <-; apply Z; assumption|].
    destruct (decimal_last _ _ _ _ H) as (m & E & B & V). destruct (decimal_last _ _ _ _ H') as (m' & E' & B' & V').
    assert (m = m') by lia. subst m'. rewrite (IH t' m E E' (P _ _ N) (P _ _ N')). f_equal. f_equal. lia.
Qed.
Lemma denotes_unique t t' n : denotes t n -> denotes t' n -> t = t'.
Proof.
  intros (N & V & Z) (N' & V' & Z').
  assert (K : forall s s', s' <> [] -> decimal_from 0 s = Some n -> decimal_from 0 s' = Some n -> (hd 0 s = 48 -> s = [48]) -> (hd 0 s' = 48 -> s' = [48]) -> hd 0 s = 48 -> s = s').
  { clear. intros s s' Ne V V' Z Z' H. rewrite (Z H) in *. cbn in V. injection V as <-. destruct s' as [|c s']; [congruence|].
    destruct (N.eq_dec c 48) as [->|X]; [rewrite (Z' eq_refl); reflexivity|]. apply decimal_positive in V'; [lia|exact X]. }
  destruct (N.eq_dec (hd 0 t) 48) as [X|X]; [eapply K; eassumption|]. destruct (N.eq_dec (hd 0 t') 48) as [X'|X']; [symmetry; eapply K; eassumption|]. eapply decimal_unique; eassumption.
Qed.

(** All two digit numbers. *)
Lemma dec2_all : forallb (fun k => Nat.eqb (length (dec2 k)) 2 &&
    match decimal_from 0 (dec2 k) with Some m => m =? k | None => false end) (map N.of_nat (seq 0 100)) = true.
Proof. vm_compute. reflexivity. Qed.

Lemma dec2_spec n : n < 100 -> two_digits (dec2 n) n.
Proof.
  intros L. pose proof dec2_all as A. rewrite forallb_forall in A.
  assert (In n (map N.of_nat (seq 0 100))) as I.
  { apply in_map_iff. exists (N.to_nat n). split; [apply N2Nat.id|]. apply in_seq. lia. }
  specialize (A n I). apply andb_true_iff in A as [A1 A2]. apply Nat.eqb_eq in A1. split; [exact A1|].
  destruct (decimal_from 0 (dec2 n)); [|discriminate A2]. apply N.eqb_eq in A2. now subst.
Qed.

(** ** Durations *)

Lemma duration_spec t : exists h m s dh dm ds,
  3600 * h + 60 * m + s = t /\ m < 60 /\ s < 60 /\ two_digits ds s /\
  ((h = 0 /\ denotes dm m /\ human_duration t = dm ++ [58] ++ ds) \/
   (0 < h /\ denotes dh h /\ two_digits dm m /\ human_duration t = dh ++ [58] ++ dm ++ [58] ++ ds)).
Proof.
  assert (t mod 60 < 60) as S by (apply N.mod_lt; lia).
  assert (t / 60 mod 60 < 60) as M by (apply N.mod_lt; lia).
  pose proof (N.div_mod t 60 ltac:(lia)) as E1. pose proof (N.div_mod (t / 60) 60 ltac:(lia)) as E2.
  exists (t / 60 / 60), (t / 60 mod 60), (t mod 60), (dec (t / 60 / 60)),
    (if 0 <? t / 60 / 60 then dec2 (t / 60 mod 60) else dec (t / 60 mod 60)), (dec2 (t mod 60)).
  split; [revert E1 E2; generalize (t mod 60) (t / 60 / 60) (t / 60 mod 60) (t / 60); intros; lia|].
  split; [exact M|]. split; [exact S|]. split; [apply dec2_spec; lia|].
  unfold human_duration. cbv zeta. destruct (N.ltb_spec 0 (t / 60 / 60)) as [P|P].
  - right. split; [exact P|]. split; [apply dec_spec|]. split; [apply dec2_spec; lia|reflexivity].
  - left. split; [lia|]. split; [apply dec_spec|reflexivity].
Qed.

(** ** Sizes *)

Lemma div_nearest_spec up a b : b <> 0 -> 2 * distance a (div_nearest up a b * b) <= b.
Proof.
  intros NZ. unfold div_nearest, distance. pose proof (N.div_mod a b NZ) as E. pose proof (N.mod_lt a b NZ) as L.
  revert E L. generalize (a / b) (a mod b). intros q r E L.
  destruct (N.compare_spec (2 * r) b) as [C|C|C]; try destruct (up q); rewrite ?N.mul_add_distr_r; rewrite E; lia.
Qed.

(** Conversion to f64 has a relative error of at most 2^-53. *)
Lemma to_f64_spec n : 2 ^ 53 * distance n (to_f64 n) <= n.
Proof.
  unfold to_f64. destruct (N.leb_spec (N.size n) 53) as [L|L].
  - unfold distance. lia.
  - assert (n <> 0) as NZ by (intros ->; cbn in L; lia).
    pose proof (N.size_log2 n NZ) as S. pose proof (N.log2_spec n ltac:(lia)) as [Lo Hi].
    assert (N.size n - 53 = N.log2 n - 52) as -> by lia.
    assert (2 ^ (N.log2 n - 52) <> 0) as PZ by (apply N.pow_nonzero; lia).
    pose proof (div_nearest_spec N.odd n (2 ^ (N.log2 n - 52)) PZ) as D.
    assert (2 ^ N.log2 n = 2 ^ 52 * 2 ^ (N.log2 n - 52)) as E.
    { rewrite <- N.pow_add_r. f_equal. lia. }
    revert D. generalize (distance n (div_nearest N.odd n (2 ^ (N.log2 n - 52)) * 2 ^ (N.log2 n - 52))). intros d D.
    rewrite E in Lo. change (2 ^ 53) with (2 * 2 ^ 52).
    revert D Lo. generalize (2 ^ 52) (2 ^ (N.log2 n - 52)). intros x y D Lo. nia.
Qed.

Lemma size_scale v : v < two64 -> (N.size v - 1) / 10 < 7.
Proof.
  intros L. apply N.div_lt_upper_bound; [lia|].
  destruct (N.eq_dec v 0) as [->|NZ]; [cbn; lia|].
  rewrite N.size_log2 by assumption.
  assert (N.log2 v < 64) by (apply N.log2_lt_pow2; [lia|exact L]). lia.
Qed.

Lemma size_range v i : i = (N.size v - 1) / 10 -> (v < 1024 /\ i = 0) \/ (1024 ^ i <= v /\ v < 1024 ^ (i + 1)).
Proof.
  intros ->. destruct (N.eq_dec v 0) as [->|NZ]; [left; split; reflexivity|].
  rewrite N.size_log2 by assumption. replace (N.succ (N.log2 v) - 1) with (N.log2 v) by lia.
  pose proof (N.log2_spec v ltac:(lia)) as [Lo Hi].
  pose proof (N.div_mod (N.log2 v) 10 ltac:(lia)) as E. pose proof (N.mod_lt (N.log2 v) 10 ltac:(lia)) as M.
  assert (forall j, 1024 ^ j = 2 ^ (10 * j)) as P by (intros j; rewrite N.pow_mul_r; reflexivity).
  right. rewrite !P. split.
  - eapply N.le_trans; [|exact Lo]. apply N.pow_le_mono_r; [lia|]. apply N.mul_div_le. lia.
  - eapply N.lt_le_trans; [exact Hi|]. apply N.pow_le_mono_r; [lia|].
    revert E M. generalize (N.log2 v / 10) (N.log2 v mod 10). intros; lia.
Qed.

Lemma scales_unit i : (i < 7)%nat -> nth_error SCALES i = Some (unit_text i).
Proof. intros L. do 7 (destruct i as [|i]; [reflexivity|]). lia. Qed.

Lemma file_size_spec {E} up v : v < two64 -> exists i number,
  (i < 7)%nat /\ @human_file_size E up v = Ok (number ++ [32] ++ unit_text i) /\
  ((i = O /\ v < 1024 /\ denotes number v) \/
   ((0 < i)%nat /\ 1024 ^ N.of_nat i <= v < 1024 ^ N.of_nat (S i) /\
    exists whole hundredths dw dh,
      number = dw ++ [46] ++ dh /\ denotes dw whole /\ two_digits dh hundredths /\
      2 ^ 53 * (2 * distance (100 * v) ((100 * whole + hundredths) * 1024 ^ N.of_nat i))
        <= 2 ^ 53 * 1024 ^ N.of_nat i + 200 * v)).
Proof.
  intros L. pose proof (size_scale v L) as Si. pose proof (size_range v _ eq_refl) as Sr.
  unfold human_file_size. cbv zeta.
  set (i := (N.size v - 1) / 10) in *. exists (N.to_nat i).
  rewrite scales_unit by lia.
  destruct (N.eqb_spec i 0) as [Z|Z].
  - exists (dec (to_f64 v)). split; [lia|]. split; [reflexivity|]. left.
    assert (v < 1024) as Lv. { destruct Sr as [[? _]|[_ ?]]; [assumption|]. rewrite Z in *. change (1024 ^ (0 + 1)) with 1024 in *. assumption. }
    split; [lia|]. split; [assumption|].
    assert (to_f64 v = v) as ->; [|apply dec_spec].
    unfold to_f64. destruct (N.leb_spec (N.size v) 53) as [?|B]; [reflexivity|].
    exfalso. destruct (N.eq_dec v 0) as [->|NZ]; [cbn in B; lia|].
    rewrite N.size_log2 in B by assumption. assert (N.log2 v < 10) by (apply N.log2_lt_pow2; [lia|exact Lv]). lia.
  - set (h := div_nearest up (100 * to_f64 v) (2 ^ (10 * i))).
    exists (dec (h / 100) ++ [46] ++ dec2 (h mod 100)). split; [lia|]. split; [reflexivity|]. right.
    destruct Sr as [[_ ?]|[S1 S2]]; [contradiction|].
    split; [lia|]. rewrite Nat2N.inj_succ, N2Nat.id. split; [split; [assumption|now rewrite <- N.add_1_r]|].
    exists (h / 100), (h mod 100), (dec (h / 100)), (dec2 (h mod 100)).
    split; [reflexivity|]. split; [apply dec_spec|]. split; [apply dec2_spec, N.mod_lt; lia|].
    pose proof (N.div_mod h 100 ltac:(lia)) as Eh. rewrite <- Eh.
    pose proof (to_f64_spec v) as F.
    assert (1024 ^ i = 2 ^ (10 * i)) as P by (rewrite N.pow_mul_r; reflexivity).
    assert (2 ^ (10 * i) <> 0) as PZ by (apply N.pow_nonzero; lia).
    pose proof (div_nearest_spec up (100 * to_f64 v) (2 ^ (10 * i)) PZ) as D. fold h in D.
    rewrite P. revert F D. unfold distance. generalize (2 ^ (10 * i)) (to_f64 v) (2 ^ 53). intros p f b F D. clear - F D.
    assert (2 * ((100 * v - h * p) + (h * p - 100 * v)) <= p + 200 * ((v - f) + (f - v))) as T.
    { revert D. generalize (h * p). intros. lia. }
    revert F T. generalize ((v - f) + (f - v)) ((100 * v - h * p) + (h * p - 100 * v)). intros x y F T. nia.
Qed.

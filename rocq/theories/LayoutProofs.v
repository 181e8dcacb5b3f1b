(** Proofs about the text of progress lines. *)
From Coq.Strings Require Import Byte String.
From Coq Require Import List NArith ZArith Bool Lia PeanoNat.
From Verif Require Import Base BaseFacts CliErrors Text Util UtilSpec UtilProofs2 Progress ProgressProofs Layout LayoutSpec.
Import ListNotations.
Local Open Scope N_scope.

(** ** The percentage *)

(** The rounded quotient: within half a unit of its last place, at least 52 bits, at most one. *)
Lemma f64_ratio_spec a b : 0 < a -> a < b ->
  let '(m, k) := f64_ratio a b in
  2 * distance (a * 2 ^ k) (m * b) <= b /\ m <= 2 ^ k /\ 2 ^ 52 <= 2 ^ k.
Proof.
  intros P L. unfold f64_ratio.
  pose proof (N.size_log2 a ltac:(lia)) as Sa. pose proof (N.size_log2 b ltac:(lia)) as Sb.
  pose proof (N.log2_le_mono a b ltac:(lia)) as M.
  set (k0 := 53 + N.size b - N.size a).
  assert (K0 : 53 <= k0) by (unfold k0; lia).
  set (k := if 2 ^ 53 * b <=? a * 2 ^ k0 then k0 - 1 else k0).
  assert (K : 52 <= k) by (unfold k; destruct (_ <=? _); lia). clearbody k.
  split; [apply div_nearest_spec; lia|].
  split; [|apply N.pow_le_mono_r; lia].
  pose proof (div_nearest_spec N.odd (a * 2 ^ k) b ltac:(lia)) as D.
  assert (B : a * 2 ^ k + 2 ^ k <= b * 2 ^ k) by nia.
  assert (P2 : 0 < 2 ^ k) by (apply N.neq_0_lt_0, N.pow_nonzero; lia).
  unfold div_nearest in *. pose proof (N.div_mod (a * 2 ^ k) b ltac:(lia)) as E.
  assert (Q : a * 2 ^ k / b < 2 ^ k) by (apply N.div_lt_upper_bound; nia).
  destruct (_ ?= b); try destruct (N.odd _); lia.
Qed.

Lemma to_f64_zero n : to_f64 n = 0 -> n = 0.
Proof.
  intros H. pose proof (to_f64_spec n) as S. rewrite H in S. unfold distance in S. lia.
Qed.
Lemma to_f64_small n : n < 9007199254740992 -> to_f64 n = n.
Proof.
  intros L. unfold to_f64. destruct (N.eq_dec n 0) as [->|NZ]; [reflexivity|].
  rewrite N.size_log2 by assumption. assert (N.log2 n < 53) by (apply N.log2_lt_pow2; [lia|exact L]).
  destruct (N.leb_spec (N.succ (N.log2 n)) 53); [reflexivity|lia].
Qed.

(** The percentage is shown in tenths: never more than 1000, and within 0.501 of the exact number. *)
Lemma percent_spec up w f : w <= f -> 0 < f ->
  percent_tenths up w f <= 1000 /\ 1000 * distance (percent_tenths up w f * f) (1000 * w) <= 501 * f.
Proof.
  intros L P. unfold percent_tenths, clamped_ratio. replace (N.max f 1) with f by lia.
  pose proof (to_f64_spec w) as Sw. pose proof (to_f64_spec f) as Sf.
  change (2 ^ 53) with 9007199254740992 in Sw, Sf.
  destruct (N.leb_spec (to_f64 f) (to_f64 w)) as [C|C].
  - change (div_nearest up (10 * to_f64 (100 * 1)) (2 ^ 0)) with (div_nearest up 1000 1).
    replace (div_nearest up 1000 1) with 1000 by reflexivity.
    split; [lia|]. unfold distance in *. lia.
  - destruct (N.eqb_spec (to_f64 w) 0) as [Z|Z].
    + apply to_f64_zero in Z. subst w. change (div_nearest up (10 * to_f64 (100 * 0)) (2 ^ 0)) with 0.
      split; unfold distance; lia.
    + pose proof (f64_ratio_spec (to_f64 w) (to_f64 f) ltac:(lia) C) as R.
      destruct (f64_ratio (to_f64 w) (to_f64 f)) as [m k]. destruct R as (R1 & R2 & R3).
      pose proof (to_f64_spec (100 * m)) as Sp. change (2 ^ 53) with 9007199254740992 in Sp.
      assert (K0 : 2 ^ k <> 0) by (apply N.pow_nonzero; lia).
      pose proof (div_nearest_spec up (10 * to_f64 (100 * m)) (2 ^ k) K0) as Sh.
      change (2 ^ 52) with 4503599627370496 in R3.
      set (h := div_nearest up _ _) in *. clearbody h.
      set (p := to_f64 (100 * m)) in *. clearbody p.
      set (a := to_f64 w) in *. clearbody a. set (b := to_f64 f) in *. clearbody b.
      set (K := 2 ^ k) in *. clearbody K. clear k K0.
      assert (H1 : h * K < 1001 * K).
      { revert R2 Sp Sh R3. generalize (h * K). clear. unfold distance. intros; lia. }
      assert (H : h <= 1000) by (clear - H1; nia).
      split; [exact H|].
      (* |hK - 1000 m| <= K/2 + 1000 K / 2^53 *)
      assert (A1 : 9007199254740992 * 2 * distance (h * K) (1000 * m) <= 9007199254740992 * K + 2000 * K).
      { revert R2 Sp Sh. generalize (h * K). clear. unfold distance. intros; lia. }
      (* times b, with |m b - a K| <= b / 2 *)
      assert (A2 : 9007199254740992 * 2 * distance (h * K * b) (1000 * m * b) <= (9007199254740992 + 2000) * (K * b)).
      { assert (distance (h * K * b) (1000 * m * b) = distance (h * K) (1000 * m) * b) as ->.
        { unfold distance. rewrite N.mul_add_distr_r, !N.mul_sub_distr_r. reflexivity. }
        revert A1. generalize (distance (h * K) (1000 * m)). clear. intros; nia. }
      assert (A3 : 2 * distance (1000 * m * b) (1000 * a * K) <= 1000 * b).
      { revert R1. unfold distance. replace (1000 * m * b) with (1000 * (m * b)) by lia.
        replace (1000 * a * K) with (1000 * (a * K)) by lia. generalize (m * b) (a * K). clear. intros; lia. }
      assert (A4 : 4503599627370496 * b <= K * b) by (apply N.mul_le_mono_r; exact R3).
      assert (A5 : 9007199254740992 * 2 * distance (h * b * K) (1000 * a * K) <= (9007199254740992 + 4000) * (b * K)).
      { revert A2 A3 A4. replace (h * K * b) with (h * b * K) by lia. replace (K * b) with (b * K) by lia.
        generalize (h * b * K) (1000 * m * b) (1000 * a * K) (b * K). clear. unfold distance. intros; lia. }
      assert (A6 : 9007199254740992 * 2 * distance (h * b) (1000 * a) <= (9007199254740992 + 4000) * b).
      { assert (distance (h * b * K) (1000 * a * K) = distance (h * b) (1000 * a) * K) as E.
        { unfold distance. rewrite N.mul_add_distr_r, !N.mul_sub_distr_r. reflexivity. }
        rewrite E in A5. clear E.
        apply (N.mul_le_mono_pos_r _ _ K); [clear - R3; lia|]. rewrite !N.mul_assoc in A5. exact A5. }
      (* from the rounded to the exact numbers *)
      assert (A7 : distance (h * f) (h * b) <= 1000 * distance f b).
      { assert (distance (h * f) (h * b) = h * distance f b) as ->.
        { unfold distance. rewrite N.mul_add_distr_l, !N.mul_sub_distr_l. reflexivity. }
        apply N.mul_le_mono_r. exact H. }
      revert A6 A7 Sw Sf L. generalize (h * f) (h * b). clear. unfold distance in *. intros; lia.
Qed.
Lemma percent_spec_all up w f : w <= f ->
  percent_tenths up w f <= 1000 /\ 1000 * distance (percent_tenths up w f * f) (1000 * w) <= 501 * f.
Proof.
  intros L. destruct (N.eq_dec f 0) as [->|NZ]; [|apply percent_spec; lia].
  assert (w = 0) as -> by lia. change (percent_tenths up 0 0) with 0. split; unfold distance; lia.
Qed.

(** ** Lengths and characters of numbers *)

Definition digits (t : text) : Prop := Forall (fun c => 48 <= c <= 57) t.

Lemma decimal_digits t : forall a n, decimal_from a t = Some n -> digits t /\ a * 10 ^ lenN t <= n.
Proof.
  induction t as [|c t IH]; intros a n H; cbn [decimal_from] in H.
  - injection H as <-. split; [constructor|]. change (10 ^ lenN (@nil char)) with 1. lia.
  - destruct (N.leb_spec 48 c) as [A|A]; [|discriminate H]. destruct (N.leb_spec c 57) as [B|B]; [|discriminate H].
    cbn [andb] in H. apply IH in H as [D V]. split; [constructor; [lia|exact D]|].
    unfold lenN in *. cbn [length]. rewrite Nat2N.inj_succ, N.pow_succ_r'.
    revert V. generalize (10 ^ N.of_nat (length t)). intros; nia.
Qed.

Lemma denotes_digits t n : denotes t n -> digits t.
Proof. intros (_ & D & _). apply decimal_digits in D as [? _]. assumption. Qed.

Lemma denotes_length t n k : denotes t n -> n < 10 ^ N.of_nat k -> (0 < k)%nat -> (length t <= k)%nat.
Proof.
  intros (NE & D & Z) L K. destruct t as [|c t]; [congruence|]. cbn [hd] in Z.
  cbn [decimal_from] in D.
  destruct (N.leb_spec 48 c) as [A|A]; [|discriminate D]. destruct (N.leb_spec c 57) as [B|B]; [|discriminate D].
  cbn [andb] in D. destruct (N.eq_dec c 48) as [->|NZ].
  - rewrite (Z eq_refl). cbn. lia.
  - apply decimal_digits in D as [_ V]. cbn [length].
    destruct (Nat.le_gt_cases (S (length t)) k) as [?|G]; [assumption|]. exfalso.
    assert (10 ^ N.of_nat k <= 10 ^ lenN t) as P by (apply N.pow_le_mono_r; [lia|unfold lenN; lia]).
    revert V. generalize dependent (10 ^ lenN t). intros; nia.
Qed.

Lemma two_digits_digits t n : two_digits t n -> digits t /\ length t = 2%nat.
Proof. intros (L & D). apply decimal_digits in D as [? _]. split; assumption. Qed.

Lemma digits_printable t : digits t -> Forall printable t.
Proof. apply Forall_impl. intros c H. unfold printable. lia. Qed.

Lemma unit_printable i : Forall printable (unit_text i).
Proof.
  unfold unit_text. do 7 (destruct i as [|i]; [cbn; repeat constructor; vm_compute; congruence|]).
  destruct i; constructor.
Qed.
Lemma unit_length i : (length (unit_text i) <= 3)%nat.
Proof. unfold unit_text. do 7 (destruct i as [|i]; [cbn; lia|]). destruct i; cbn; lia. Qed.

Lemma size_text_fits v t : size_text v t -> Forall printable t /\ (length t <= 11)%nat.
Proof.
  intros (i & number & I & -> & H). pose proof (unit_length i) as U.
  assert (Forall printable number /\ (length number <= 7)%nat) as [F L].
  { destruct H as [(_ & L & D)|(Pi & (L1 & L2) & whole & hun & dw & dh & -> & D & T & E)].
    - split; [apply digits_printable, (denotes_digits _ _ D)|].
      apply Nat.le_trans with 4%nat; [|lia]. apply (denotes_length _ _ _ D); [|lia]. change (10 ^ N.of_nat 4) with 10000. lia.
    - apply two_digits_digits in T as [T1 T2].
      assert (W : whole < 10000).
      { rewrite Nat2N.inj_succ, N.pow_succ_r' in L2. revert L1 L2 E.
        assert (0 < 1024 ^ N.of_nat i) as X by (apply N.neq_0_lt_0, N.pow_nonzero; lia). revert X.
        generalize (1024 ^ N.of_nat i). change (2 ^ 53) with 9007199254740992. intros x X L1 L2 E.
        destruct (N.lt_ge_cases whole 10000) as [?|G]; [assumption|]. exfalso.
        assert (1000000 * x <= (100 * whole + hun) * x) as M by (apply N.mul_le_mono_r; lia).
        revert M E. generalize ((100 * whole + hun) * x). clear - L2. unfold distance. intros; lia. }
      split.
      + apply Forall_app. split; [apply digits_printable, (denotes_digits _ _ D)|]. constructor; [unfold printable; lia|].
        apply digits_printable, T1.
      + rewrite app_length. cbn [app length]. rewrite T2.
        pose proof (denotes_length _ _ 4 D W ltac:(lia)). lia. }
  split.
  - apply Forall_app. split; [exact F|]. constructor; [unfold printable; lia|apply unit_printable].
  - rewrite app_length. cbn [app length]. lia.
Qed.

Lemma duration_text_fits t d : t < two64 -> duration_text t d -> Forall printable d /\ (length d <= 22)%nat.
Proof.
  intros B (h & m & s & dh & dm & ds & E & Lm & Ls & Ts & H). apply two_digits_digits in Ts as [Ts1 Ts2].
  destruct H as [(_ & D & ->)|(_ & D & T & ->)].
  - split.
    + apply Forall_app. split; [apply digits_printable, (denotes_digits _ _ D)|]. constructor; [unfold printable; lia|].
      apply digits_printable, Ts1.
    + rewrite app_length. cbn [app length]. rewrite Ts2.
      assert (length dm <= 2)%nat; [|lia]. apply (denotes_length _ _ _ D); [|lia]. change (10 ^ N.of_nat 2) with 100. lia.
  - apply two_digits_digits in T as [T1 T2]. split.
    + apply Forall_app. split; [apply digits_printable, (denotes_digits _ _ D)|]. constructor; [unfold printable; lia|].
      apply Forall_app. split; [apply digits_printable, T1|]. constructor; [unfold printable; lia|]. apply digits_printable, Ts1.
    + rewrite app_length. cbn [app length]. rewrite app_length. cbn [length]. rewrite T2, Ts2.
      assert (length dh <= 16)%nat; [|lia]. apply (denotes_length _ _ _ D); [|lia].
      change (10 ^ N.of_nat 16) with 10000000000000000. unfold two64 in B. lia.
Qed.

Lemma percentage_text_fits w f t : percentage_text w f t -> Forall printable t /\ (length t <= 5)%nat.
Proof.
  intros (whole & tenth & dw & -> & D & T & B & _). split.
  - apply Forall_app. split; [apply digits_printable, (denotes_digits _ _ D)|]. repeat constructor; unfold printable; lia.
  - rewrite app_length. cbn [length]. assert (length dw <= 3)%nat; [|lia]. apply (denotes_length _ _ _ D); [|lia].
    change (10 ^ N.of_nat 3) with 1000. lia.
Qed.

Lemma pad_field n t : (length t <= n)%nat -> field n t (pad_left n t).
Proof.
  intros L. unfold pad_left. split; [rewrite app_length, repeat_length; lia|]. eexists. reflexivity.
Qed.
Lemma field_printable n t c : field n t c -> Forall printable t -> Forall printable c.
Proof.
  intros (_ & k & ->) F. apply Forall_app. split; [|exact F].
  apply Forall_forall. intros x H. apply repeat_spec in H. subst x. unfold printable. lia.
Qed.

Lemma dec_digit d : d < 10 -> dec d = [48 + d].
Proof.
  intros L. destruct (dec_spec d) as (NE & D & Z). pose proof (denotes_length _ _ 1 (dec_spec d) L ltac:(lia)) as Len.
  destruct (dec d) as [|c [|? ?]]; cbn [length] in Len; [congruence| |lia].
  cbn [decimal_from] in D. destruct (N.leb_spec 48 c) as [A|A]; [|discriminate D]. destruct (c <=? 57); [|discriminate D].
  cbn [andb] in D. injection D as D. f_equal. lia.
Qed.

Lemma percent_text_spec up w f : w <= f -> percentage_text w f (percent_text up w f).
Proof.
  intros L. destruct (percent_spec_all up w f L) as [B E]. unfold percent_text.
  set (h := percent_tenths up w f) in *. clearbody h.
  pose proof (N.div_mod h 10 ltac:(lia)) as Eh. pose proof (N.mod_lt h 10 ltac:(lia)) as M.
  exists (h / 10), (h mod 10), (dec (h / 10)). rewrite (dec_digit _ M), <- Eh.
  repeat split; [apply (dec_spec (h / 10))..|exact M|exact B|exact E].
Qed.

(** A progress line always formats, and says what it should. *)
Definition word (n : option N) : Prop := match n with Some n => n < two64 | None => True end.

Lemma format_line_ok {E} up w f s e : w < two64 -> word s -> word e ->
  match f with Some f => w <= f | None => True end ->
  exists t, @format_progress_line E up w f s e = Ok t /\ line_text w f s e t.
Proof.
  intros Ww Ws We L. unfold format_progress_line.
  destruct (@file_size_spec E up w Ww) as (i & number & I & Ez & Hz). rewrite Ez.
  assert (Z : size_text w (number ++ [32] ++ unit_text i)) by (exists i, number; auto).
  set (z := number ++ [32] ++ unit_text i) in *. clearbody z. cbn [bind].
  assert (exists sp, match s with Some s => let* t := human_file_size up s in Ok (t ++ lit "/s") | None => Ok [] end = @Ok E _ sp /\
    match s with Some s => exists z, size_text s z /\ sp = z ++ [47; 115] | None => sp = [] end /\ (length sp <= 16)%nat) as (sp & Es & Hs & Ls).
  { destruct s as [s|]; [|exists []; repeat split; cbn; lia].
    destruct (@file_size_spec E up s Ws) as (j & nb & J & Ej & Hj). rewrite Ej.
    assert (Zs : size_text s (nb ++ [32] ++ unit_text j)) by (exists j, nb; auto).
    eexists. split; [reflexivity|]. split; [exists (nb ++ [32] ++ unit_text j); split; [exact Zs|reflexivity]|].
    rewrite app_length. destruct (size_text_fits _ _ Zs) as [_ X]. change (length (lit "/s")) with 2%nat. lia. }
  rewrite Es. cbn [bind]. eexists. split; [reflexivity|].
  eexists _, z, sp, _, _, _, _. split; [reflexivity|].
  split; [apply pad_field|split; [apply pad_field|split; [apply pad_field; exact Ls|split; [|split; [exact Z|split; [exact Hs|]]]]]].
  - destruct f as [f|]; [|cbn; lia]. apply (percentage_text_fits w f), percent_text_spec, L.
  - destruct (size_text_fits _ _ Z) as [_ X]. lia.
  - destruct f as [f|]; [apply percent_text_spec, L|reflexivity].
  - destruct e as [e|]; [|reflexivity]. exists (human_duration e). split; [|reflexivity]. apply duration_spec.
Qed.

Lemma line_text_fits w f s e t : word e -> line_text w f s e t -> Forall printable t /\ (length t <= 73)%nat.
Proof.
  intros We (percent & size & speed & eta & cp & cz & cs & -> & Fp & Fz & Fs & P & Z & S & T).
  assert (Forall printable percent) as Pp.
  { destruct f; [apply (percentage_text_fits _ _ _ P)|subst percent; repeat constructor; unfold printable; lia]. }
  assert (Forall printable speed) as Ps.
  { destruct s; [|subst speed; constructor]. destruct S as (z & Hz & ->). apply Forall_app. split; [apply (size_text_fits _ _ Hz)|].
    repeat constructor; unfold printable; lia. }
  assert (Forall printable eta /\ (length eta <= 28)%nat) as [Pe Le].
  { destruct e; [|subst eta; split; [constructor|cbn; lia]]. destruct T as (d & Hd & ->).
    destruct (duration_text_fits _ _ We Hd) as [X Y]. split.
    - apply Forall_app. split; [repeat constructor; unfold printable; lia|]. apply Forall_app. split; [exact X|]. repeat constructor; unfold printable; lia.
    - rewrite !app_length. cbn [length]. lia. }
  split.
  - repeat (apply Forall_app; split);
      try (apply field_printable with (1 := Fp)); try (apply field_printable with (1 := Fz)); try (apply field_printable with (1 := Fs));
      try assumption; try (apply (size_text_fits _ _ Z)); repeat constructor; unfold printable; lia.
  - rewrite !app_length. cbn [length]. rewrite (proj1 Fp), (proj1 Fz), (proj1 Fs). lia.
Qed.

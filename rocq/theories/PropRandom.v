(** C16, the random choice of the chunk size: every size is drawn equally often. *)
From Coq Require Import List NArith Bool Lia.
From Coq.Strings Require Import Byte.
From Verif Require Import Base BaseFacts Shamir Crypto HeaderIo HeaderCrypto CredSpec Rng.
Import ListNotations.
Local Open Scope N_scope.

(** A range below 2^64 is shifted until its highest bit is set. *)
Lemma shifted range : 0 < range < 2 ^ 64 -> 2 ^ 63 <= range * 2 ^ leading_zeros range < 2 ^ 64.
Proof.
  intros [P L]. unfold leading_zeros. assert (S : N.size range <= 64) by (rewrite N.size_log2 by lia; apply N.log2_lt_pow2 in L; lia).
  pose proof (N.size_gt range) as G. pose proof (N.size_le range) as H.
  set (s := N.size range) in *. assert (E : 2 ^ s * 2 ^ (64 - s) = 2 ^ 64) by (rewrite <- N.pow_add_r; f_equal; lia).
  assert (Q : 0 < 2 ^ (64 - s)) by (apply N.neq_0_lt_0, N.pow_nonzero; discriminate).
  assert (Ds : N.succ_double range = 2 * range + 1) by (apply N.succ_double_spec).
  split.
  - assert (2 ^ 64 = 2 * 2 ^ 63) as E2 by reflexivity. 
    assert (0 < s) by (unfold s; rewrite N.size_log2 by lia; lia).
    assert (Es : 2 ^ s = 2 * 2 ^ (s - 1)) by (rewrite <- N.pow_succ_r'; f_equal; lia).
    assert (2 ^ (s - 1) <= range).
    { unfold s. rewrite N.size_log2 by lia. replace (N.succ (N.log2 range) - 1) with (N.log2 range) by lia. apply N.log2_spec. exact P. }
    clearbody s. nia.
  - clearbody s. nia.
Qed.

(** The draws that are accepted and give [k] are as many for all [k]: [2 ^ leading_zeros range] successive numbers.
    At least half of all draws is accepted. *)
Lemma accepted range : 0 < range < 2 ^ 64 -> forall k, k < range -> exists first, first + 2 ^ leading_zeros range <= 2 ^ 64 /\
  forall v, accept range v = Some k <-> first <= v < first + 2 ^ leading_zeros range.
Proof.
  intros R k K. destruct (shifted range R) as [Z1 Z2]. unfold accept, zone, wrap64. change two64 with (2 ^ 64). rewrite (N.mod_small (range * _)) by exact Z2.
  set (m := 2 ^ leading_zeros range) in *. set (T := 2 ^ 64) in *. assert (Tp : 0 < T) by reflexivity. clearbody m T.
  pose proof (N.div_mod (k * T + range - 1) range ltac:(lia)) as D. pose proof (N.mod_lt (k * T + range - 1) range ltac:(lia)) as Mo.
  set (first := (k * T + range - 1) / range) in *. set (o := (k * T + range - 1) mod range) in *. clearbody first o.
  assert (F1 : k * T <= range * first) by lia. assert (F2 : range * first < k * T + range) by lia.
  exists first. split.
  - assert (range * (first + m) < range * (T + 1)); [|nia]. nia.
  - intros v. pose proof (N.div_mod (v * range) T ltac:(lia)) as Dv. pose proof (N.mod_lt (v * range) T ltac:(lia)) as Mv.
    set (hi := v * range / T) in *. set (lo := (v * range) mod T) in *. clearbody hi lo. destruct (N.leb_spec lo (range * m - 1)) as [L|L].
    + split.
      * intros [= ->]. split; [|nia]. destruct (N.le_gt_cases first v) as [X|X]; [exact X|]. exfalso. nia.
      * intros [A B]. f_equal. assert (k * T <= v * range < (k + 1) * T) by nia. nia.
    + split; [discriminate|]. intros [A B]. exfalso. assert (k * T <= v * range < k * T + range * m) by nia.
      assert (hi = k) by nia. subst hi. nia.
Qed.
Lemma accepted_small range v k : 0 < range < 2 ^ 64 -> v < 2 ^ 64 -> accept range v = Some k -> k < range.
Proof.
  intros R V. unfold accept. destruct (_ <=? _); [|discriminate]. intros [= <-]. apply N.div_lt_upper_bound; [discriminate|]. nia.
Qed.
Lemma next_value r v r' : next_u64 r = (v, r') -> v = le_value (map r (seq 0 8)) /\ v < 2 ^ 64 /\ r' = fun i => r (8 + i)%nat.
Proof.
  unfold next_u64, rng_fill. intros H. injection H as <- <-. split; [reflexivity|]. split; [|reflexivity].
  pose proof (le_value_bound (map r (seq 0 8))) as B. unfold lenN in B. rewrite map_length, seq_length in B. exact B.
Qed.

(** The sizes that can be drawn. *)
Definition drawable (chunk : N) : Prop := 1024 * 1024 - 4096 <= chunk <= 1024 * 1024 + 4088 /\ chunk mod 8 = 0.

(** The next eight bytes of the random generator, a number below 2^64, settle the chunk size or are skipped.  There are
    as many numbers for each size, and more than half of all numbers settle it. *)
Theorem C16_every_size_is_equally_likely : exists (many : N) (first : N -> N), 2 ^ 63 <= 1024 * many /\
  (forall chunk, drawable chunk -> first chunk + many <= 2 ^ 64 /\
     forall r, first chunk <= le_value (map r (seq 0 8)) < first chunk + many ->
     forall k r', draw_chunk r k r' <-> (forall key seed shares, chosen_chunk_size (mkRandom k key seed shares) = chunk) /\ r' = fun i => r (8 + i)%nat) /\
  (forall r, (forall chunk, drawable chunk -> ~ first chunk <= le_value (map r (seq 0 8)) < first chunk + many) ->
     forall k r', draw_chunk r k r' <-> draw_chunk (fun i => r (8 + i)%nat) k r').
Proof.
  change draw_chunk with (gen_range 1024).
  assert (R : 0 < 1024 < 2 ^ 64) by (split; reflexivity).
  set (number := fun chunk => (chunk - 1044480) / 8).
  assert (Nu : forall chunk, drawable chunk -> chunk = 1044480 + 8 * number chunk /\ number chunk < 1024).
  { intros chunk [A B]. unfold number. pose proof (N.div_mod chunk 8 ltac:(discriminate)) as D. set (q := chunk / 8) in *. clearbody q.
    replace (chunk - 1044480) with ((q - 130560) * 8) by lia. rewrite N.div_mul by discriminate. lia. }
  assert (Un : forall k, k < 1024 -> drawable (1044480 + 8 * k) /\ number (1044480 + 8 * k) = k).
  { intros k K. unfold number, drawable. replace (1044480 + 8 * k - 1044480) with (k * 8) by lia. rewrite N.div_mul by discriminate. split; [|reflexivity].
    split; [lia|]. replace (1044480 + 8 * k) with ((130560 + k) * 8) by lia. apply N.mod_mul. discriminate. }
  assert (Ch : forall k key seed shares, chosen_chunk_size (mkRandom k key seed shares) = 1044480 + 8 * k).
  { intros. unfold chosen_chunk_size, DEFAULT_CHUNK_SIZE, DEFAULT_CHUNK_SIZE_UNCERTAINTY, FILE_ALIGNMENT. cbn [er_chunk]. lia. }
  assert (Iv : forall k, k < 1024 -> 2 ^ 54 * k + 2 ^ 53 <= 2 ^ 64 /\ forall v, accept 1024 v = Some k <-> 2 ^ 54 * k <= v < 2 ^ 54 * k + 2 ^ 53).
  { intros k K. split; [change (2 ^ 64) with (2 ^ 54 * 1024); change (2 ^ 53) with (2 ^ 54 / 2); assert (2 ^ 54 / 2 <= 2 ^ 54) by (vm_compute; discriminate); nia|].
    intros v. unfold accept. change (zone 1024) with (2 ^ 63 - 1). change (2 ^ 64) with (2 ^ 54 * 1024). rewrite N.div_mul_cancel_r, N.mul_mod_distr_r by discriminate.
    pose proof (N.div_mod v (2 ^ 54) ltac:(discriminate)) as D. pose proof (N.mod_lt v (2 ^ 54) ltac:(discriminate)) as M.
    set (q := v / 2 ^ 54) in *. set (o := v mod 2 ^ 54) in *. clearbody q o. destruct (N.leb_spec (o * 1024) (2 ^ 63 - 1)) as [L|L].
    - assert (o < 2 ^ 53) by (change (2 ^ 63) with (2 ^ 53 * 1024) in L; assert (0 < 2 ^ 53) by reflexivity; nia). split; [intros [= ->]; lia|]. intros [A B]. f_equal.
      change (2 ^ 54) with 18014398509481984 in *. change (2 ^ 53) with 9007199254740992 in *. lia.
    - split; [discriminate|]. intros [A B]. exfalso. change (2 ^ 54) with 18014398509481984 in *. change (2 ^ 53) with 9007199254740992 in *. change (2 ^ 63) with 9223372036854775808 in *. lia. }
  exists (2 ^ 53), (fun chunk => 2 ^ 54 * number chunk). split; [vm_compute; discriminate|]. split.
  - intros chunk Dc. destruct (Nu chunk Dc) as [Ec Kc]. destruct (Iv _ Kc) as [B Iv1]. split; [exact B|]. intros r Hr k r'. apply Iv1 in Hr. split.
    + intros H. inversion H as [? v r1 ? N A|? v r1 ? ? N A G]; subst; destruct (next_value _ _ _ N) as (-> & _ & ->); rewrite Hr in A; [|discriminate A].
      injection A as <-. split; [|reflexivity]. intros. rewrite Ch. symmetry. exact Ec.
    + intros [H ->]. specialize (H [] [] (fun _ => x00)). rewrite Ch in H. assert (k = number chunk) as -> by lia. eapply gr_done; [reflexivity|exact Hr].
  - intros r Hn k r'. assert (A : accept 1024 (le_value (map r (seq 0 8))) = None).
    { destruct (accept 1024 (le_value (map r (seq 0 8)))) as [k0|] eqn:A; [|reflexivity]. exfalso.
      destruct (next_u64 r) as [v r1] eqn:N. destruct (next_value _ _ _ N) as (-> & V & _).
      pose proof (accepted_small _ _ _ R V A) as K. destruct (Un k0 K) as [D E]. apply (Hn _ D). rewrite E. apply (proj2 (Iv _ K)), A. }
    split.
    + intros H. inversion H as [? v r1 ? N A'|? v r1 ? ? N A' G]; subst; destruct (next_value _ _ _ N) as (-> & _ & ->); [congruence|exact G].
    + intros H. eapply gr_again; [reflexivity|exact A|exact H].
Qed.
Print Assumptions C16_every_size_is_equally_likely.

(** Whatever the generator delivers, an encryption gets an admissible number. *)
Theorem C16_drawn_numbers_are_admissible : forall r k r' key seed shares, draw_chunk r k r' -> length key = 32%nat -> random_ok (mkRandom k key seed shares).
Proof.
  intros r k r' key seed shares H L. change (gen_range 1024 r k r') in H. split; [|exact L]. cbn [er_chunk].
  induction H as [r v r' k N A|r v r1 k r' N A G IH]; [|exact IH]. destruct (next_value _ _ _ N) as (_ & V & _). eapply accepted_small; [|exact V|exact A]. split; reflexivity.
Qed.
Print Assumptions C16_drawn_numbers_are_admissible.

(** The same for any range: rand has no bias. *)
Theorem C16_ranges_are_drawn_without_bias : forall range, 0 < range < 2 ^ 64 -> exists many, 2 ^ 63 <= range * many /\
  forall k, k < range -> exists first, first + many <= 2 ^ 64 /\ forall v, accept range v = Some k <-> first <= v < first + many.
Proof. intros range R. exists (2 ^ leading_zeros range). split; [apply shifted, R|]. exact (accepted range R). Qed.
Print Assumptions C16_ranges_are_drawn_without_bias.

(** Eight bytes that are skipped and eight that give 7. *)
Example C16_draw_case : exists r', draw_chunk (fun i => nth i (repeat xff 8 ++ [x00; x00; x00; x00; x00; x00; xc0; x01]) x00) 7 r' /\ drawable (1044480 + 8 * 7).
Proof.
  eexists. split; [|split; [split; vm_compute; discriminate|reflexivity]]. eapply gr_again; [reflexivity|reflexivity|]. eapply gr_done; reflexivity.
Qed.

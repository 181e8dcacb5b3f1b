(** Facts about cutting a byte string into chunks. *)
From Coq Require Import List NArith Bool Lia Arith.
From Coq.Strings Require Import Byte.
From Verif Require Import Base BaseFacts Shamir Errors Io HeaderIoSpec StreamSpec.
Import ListNotations.

Lemma skipn_plus {A} a b (l : list A) : skipn a (skipn b l) = skipn (b + a) l.
Proof. revert l; induction b; intros [|x l]; cbn; auto. apply skipn_nil. Qed.

Lemma chunks_fuel_enough n : 1 <= n -> forall f g data, length data <= f -> length data <= g ->
  chunks_fuel f n data = chunks_fuel g n data.
Proof.
  intros Hn. induction f as [|f IH]; intros g data Hf Hg.
  - assert (data = []) by (destruct data; [reflexivity|cbn in Hf; lia]). subst.
    destruct g; [reflexivity|]. cbn. reflexivity.
  - destruct g as [|g].
    + assert (data = []) by (destruct data; [reflexivity|cbn in Hg; lia]). subst. reflexivity.
    + cbn [chunks_fuel]. destruct (Nat.leb_spec (length data) n); [reflexivity|].
      f_equal. apply IH; rewrite skipn_length; lia.
Qed.

Lemma chunks_eq n data : 1 <= n ->
  chunks n data = if Nat.leb (length data) n then [data] else firstn n data :: chunks n (skipn n data).
Proof.
  intros Hn. unfold chunks. destruct (Nat.leb_spec (length data) n) as [H|H].
  - destruct (length data) as [|k] eqn:E; [reflexivity|]. cbn [chunks_fuel].
    rewrite E. destruct (Nat.leb_spec (S k) n); [reflexivity|lia].
  - destruct (length data) as [|k] eqn:E; [lia|]. cbn [chunks_fuel].
    rewrite E. destruct (Nat.leb_spec (S k) n); [lia|]. f_equal.
    apply chunks_fuel_enough; [assumption|rewrite skipn_length; lia|lia].
Qed.

Lemma chunks_ind n (P : bytes -> list bytes -> Prop) : 1 <= n ->
  (forall d, length d <= n -> P d [d]) ->
  (forall d, n < length d -> P (skipn n d) (chunks n (skipn n d)) -> P d (firstn n d :: chunks n (skipn n d))) ->
  forall d, P d (chunks n d).
Proof.
  intros Hn H1 H2 d. remember (length d) as k eqn:E. revert d E.
  induction k as [k IH] using lt_wf_ind; intros d E. rewrite chunks_eq by assumption.
  destruct (Nat.leb_spec (length d) n); [apply H1; assumption|].
  apply H2; [assumption|]. eapply IH; [|reflexivity]. rewrite skipn_length. lia.
Qed.

Lemma chunks_length_pos n d : 1 <= n -> 1 <= length (chunks n d).
Proof. intros Hn. rewrite chunks_eq by assumption. destruct (Nat.leb _ _); cbn; lia. Qed.

Lemma chunks_concat n d : 1 <= n -> concat (chunks n d) = d.
Proof.
  intros Hn. apply (chunks_ind n (fun d cs => concat cs = d) Hn).
  - intros d' _. cbn. apply app_nil_r.
  - intros d' _ IH. cbn. rewrite IH. apply firstn_skipn.
Qed.

Lemma chunks_split n d : 1 <= n -> is_split n d (chunks n d).
Proof.
  intros Hn. apply (chunks_ind n (is_split n) Hn).
  - intros d' H. exists [], d'. repeat split; auto.
  - intros d' H (init & last & E1 & E2 & E3 & E4 & E5).
    exists (firstn n d' :: init), last. rewrite E1. repeat split; auto.
    + cbn. rewrite <- app_assoc, <- E2. symmetry. apply firstn_skipn.
    + constructor; [apply firstn_length_le; lia|assumption].
    + intros _. destruct init; [|apply E5; discriminate].
      cbn in E2. subst last. intros E. apply (f_equal (@length _)) in E.
      rewrite skipn_length in E. cbn in E. lia.
Qed.

Lemma split_unique n d cs cs' : 1 <= n -> is_split n d cs -> is_split n d cs' -> cs = cs'.
Proof.
  intros Hn (i & l & -> & E2 & E3 & E4 & E5) (i' & l' & -> & E2' & E3' & E4' & E5').
  rewrite E2 in E2'. clear d E2.
  revert i' E2' E3 E3' E5 E5'.
  induction i as [|c i IH]; intros [|c' i'] E2' E3 E3' E5 E5'; cbn [concat app] in *.
  - congruence.
  - exfalso. apply Forall_inv in E3'. assert (l' <> []) by (apply E5'; discriminate).
    apply (f_equal (@length _)) in E2'. rewrite !app_length in E2'.
    destruct l'; [contradiction|]. cbn in E2'. lia.
  - exfalso. apply Forall_inv in E3. assert (l <> []) by (apply E5; discriminate).
    apply (f_equal (@length _)) in E2'. rewrite !app_length in E2'.
    destruct l; [contradiction|]. cbn in E2'. lia.
  - pose proof (Forall_inv E3) as L3. pose proof (Forall_inv E3') as L3'. cbn beta in L3, L3'.
    apply Forall_inv_tail in E3, E3'.
    rewrite <- !app_assoc in E2'.
    assert (E : length c = length c') by congruence.
    assert (Ec : c = c' /\ concat i ++ l = concat i' ++ l').
    { clear -E E2'. revert c' E E2'. induction c as [|x c IH]; intros [|y c'] E E2'; cbn in *; try discriminate.
      - auto.
      - injection E2' as -> E2'. injection E as E. destruct (IH _ E E2') as [-> ->]. auto. }
    destruct Ec as [-> Ec]. f_equal. apply IH; auto.
    + intros _. apply E5. discriminate.
    + intros _. apply E5'. discriminate.
Qed.

(** The [i]-th chunk. *)
Lemma chunks_nth n d i dflt : 1 <= n -> i < length (chunks n d) ->
  nth i (chunks n d) dflt = firstn n (skipn (i * n) d).
Proof.
  intros Hn. revert i.
  apply (chunks_ind n (fun d cs => forall i, i < length cs -> nth i cs dflt = firstn n (skipn (i * n) d)) Hn).
  - intros d' H i Hi. cbn in Hi. assert (i = 0) by lia. subst. cbn. symmetry. apply firstn_all2. assumption.
  - intros d' H IH [|i] Hi; [reflexivity|]. cbn in Hi. cbn [nth]. rewrite IH by lia.
    f_equal. rewrite skipn_plus. reflexivity.
Qed.

Lemma chunks_lt n d i : 1 <= n -> (i < length (chunks n d) <-> i = 0 \/ i * n < length d).
Proof.
  intros Hn. revert i.
  apply (chunks_ind n (fun d cs => forall i, (i < length cs <-> i = 0 \/ i * n < length d)) Hn).
  - intros d' H i. cbn. split; [lia|]. intros [->|H']; [lia|]. destruct i; [lia|]. cbn in H'. lia.
  - intros d' H IH [|i]; cbn [length]; [lia|].
    rewrite <- Nat.succ_lt_mono, IH, skipn_length. cbn [Nat.mul].
    split; [intros [->|H']; lia|]. intros [H'|H']; [discriminate|]. right. lia.
Qed.

Lemma chunks_nth_length n d i dflt : 1 <= n -> S i < length (chunks n d) ->
  length (nth i (chunks n d) dflt) = n.
Proof.
  intros Hn Hi. rewrite chunks_nth by lia. apply chunks_lt in Hi; [|assumption].
  destruct Hi as [Hi|Hi]; [discriminate|]. apply firstn_length_le. rewrite skipn_length.
  cbn in Hi. lia.
Qed.

Lemma chunks_nth_le n d i dflt : 1 <= n -> i < length (chunks n d) -> length (nth i (chunks n d) dflt) <= n.
Proof. intros Hn Hi. rewrite chunks_nth by lia. rewrite firstn_length. lia. Qed.

Lemma flag_last_length cs : length (flag_last cs) = length cs.
Proof. induction cs as [|c [|c' cs] IH]; [reflexivity..|]. cbn [flag_last length] in *. lia. Qed.

Lemma flag_last_nth cs i dflt : i < length cs ->
  nth i (flag_last cs) dflt = (nth i cs (fst dflt), Nat.eqb (S i) (length cs)).
Proof.
  revert i. induction cs as [|c [|c' cs] IH]; intros i Hi; cbn [length] in *; [lia|..].
  - assert (i = 0) by lia. subst. reflexivity.
  - destruct i as [|i]; [reflexivity|]. cbn [flag_last nth]. rewrite IH by lia. reflexivity.
Qed.

Lemma flag_last_map_fst cs : map fst (flag_last cs) = cs.
Proof. induction cs as [|c [|c' cs] IH]; [reflexivity..|]. cbn [flag_last map fst] in *. congruence. Qed.

Lemma removelast_length {A} (l : list A) : length (removelast l) = length l - 1.
Proof. induction l as [|a [|b l] IH]; [reflexivity..|]. cbn [removelast length] in *. lia. Qed.

Lemma removelast_nth {A} (l : list A) i d : S i < length l -> nth i (removelast l) d = nth i l d.
Proof.
  revert i. induction l as [|a [|b l] IH]; intros i Hi; cbn [length] in *; [lia..|].
  destruct i as [|i]; [reflexivity|]. cbn [removelast]. cbn [nth]. apply IH. cbn [length]. lia.
Qed.

Section Input.
Context (n : nat) (Hn : 1 <= n) (src : source).
Let data := flat src.
Let cs := chunks n data.
Let E := input_chunks n src.

Lemma input_length : length E = if ends_in_error src then length cs - 1 else length cs.
Proof.
  unfold E, input_chunks. fold data cs. destruct (ends_in_error src).
  - rewrite map_length, removelast_length. reflexivity.
  - apply flag_last_length.
Qed.

Lemma input_nth i d : i < length E ->
  nth i E d = (firstn n (skipn (i * n) data), negb (ends_in_error src) && Nat.eqb (S i) (length cs)).
Proof.
  intros Hi. rewrite input_length in Hi. unfold E, input_chunks. fold data cs.
  destruct (ends_in_error src) eqn:Er; cbn [negb andb].
  - rewrite nth_indep with (d' := (fun c => (c, false)) (fst d)) by (rewrite map_length, removelast_length; assumption).
    rewrite map_nth with (f := fun c => (c, false)). rewrite removelast_nth by lia.
    unfold cs. rewrite chunks_nth; [reflexivity|assumption|]. fold cs. lia.
  - rewrite flag_last_nth by assumption. unfold cs at 1. rewrite chunks_nth; auto.
Qed.

Lemma input_le i d : i < length E -> length (fst (nth i E d)) <= n.
Proof. intros Hi. rewrite input_nth by assumption. cbn. rewrite firstn_length. lia. Qed.

(** More than [n] bytes follow position [i*n]: chunk [i] is complete and not the last one. *)
Lemma input_more i : (i + 1) * n < length data ->
  i < length E /\ forall d, nth i E d = (firstn n (skipn (i * n) data), false).
Proof.
  intros Hi. assert (H : S i < length cs) by (apply chunks_lt; [assumption|right; lia]).
  assert (Hl : i < length E) by (rewrite input_length; destruct (ends_in_error src); lia).
  split; [assumption|]. intros d. rewrite input_nth by assumption. f_equal.
  destruct (Nat.eqb_spec (S i) (length cs)); [lia|]. apply andb_false_r.
Qed.

(** The data ends within chunk [i]. *)
Lemma input_end i : i < length cs -> length data <= (i + 1) * n ->
  length cs = S i.
Proof.
  intros Hi H. destruct (Nat.lt_ge_cases (S i) (length cs)) as [H'|H']; [|lia].
  apply chunks_lt in H'; [|assumption]. destruct H'; [discriminate|lia].
Qed.

Lemma input_last i : i < length cs -> length data <= (i + 1) * n -> ends_in_error src = false ->
  length E = S i /\ forall d, nth i E d = (skipn (i * n) data, true).
Proof.
  intros Hi H Er. pose proof (input_end i Hi H) as Hl.
  assert (HE : length E = S i) by (rewrite input_length, Er; assumption).
  split; [assumption|]. intros d. rewrite input_nth by lia. rewrite Er, Hl, Nat.eqb_refl. cbn. f_equal.
  apply firstn_all2. rewrite skipn_length. lia.
Qed.

Lemma input_broken i : i < length cs -> length data <= (i + 1) * n -> ends_in_error src = true ->
  length E = i.
Proof. intros Hi H Er. pose proof (input_end i Hi H) as Hl. rewrite input_length, Er. lia. Qed.

End Input.

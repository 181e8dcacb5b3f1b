(** Proofs about what the progress display is told. *)
From Coq.Strings Require Import Byte String.
From Coq Require Import List NArith ZArith Bool Lia PeanoNat.
From Verif Require Import Base BaseFacts Shamir Errors Io HeaderIoSpec HeaderIoProofs Pipeline PipelineSpec StreamSpec ChunkProofs PipelineProofs PipelineProofs2 PipelineProofs3.
Import ListNotations.

(** ** What has been reported has been written *)

Section Written.
Context (p : pipe) (src0 : source) (sk0 : sink) (Hok : pipe_ok p).
Notation Inv := (Inv p src0 sk0).

(** The output of chunks that have been written completely: reported ones, one in the hands of the calling thread, and
    those on their way to it. *)
Definition size_out (w : N) : nat := N.to_nat w + p_out_asize p - p_in_asize p.
Definition total_out (ws : list N) : nat := list_sum (map size_out ws).
Definition written (s : pstate) : nat :=
  total_out (s_progress s ++ pend (s_mn s)) + list_sum (map (fun c => length (ck_buf c)) (s_ch3 s)).
Definition balance (s : pstate) : Prop :=
  let done := length (w_out sk0) + written s in
  let here := length (w_out (s_sink s)) in
  match s_wr s with
  | WWait => here = done
  | WWrite c rest => here + length rest = done + length (ck_buf c) /\ length rest <= length (ck_buf c)
  | WFlush c | WSend c => here = done + length (ck_buf c)
  | WClose _ | WDone _ => done <= here
  end.

Lemma total_app a b : total_out (a ++ b) = total_out a + total_out b.
Proof. unfold total_out. rewrite map_app. apply list_sum_app. Qed.

Lemma balance_reader s s' : balance s -> step_reader s = Some s' -> balance s'.
Proof.
  intros B H. unfold step_reader in H.
  assert (forall src rd ch0 ch1, balance (set_reader s src rd ch0 ch1)) as X by (intros; exact B).
  repeat match type of H with
  | context [match ?x with _ => _ end] => destruct x eqn:?
  | Some _ = Some _ => injection H as <-
  | None = Some _ => discriminate H
  | context [let '(_, _) := ?x in _] => destruct x eqn:?
  end; apply X.
Qed.
Lemma balance_codec s s' : balance s -> step_codec p s = Some s' -> balance s'.
Proof.
  intros B H. unfold step_codec in H.
  assert (forall cd ch1 ch2, balance (set_codec s cd ch1 ch2)) as X by (intros; exact B).
  repeat match type of H with
  | context [match ?x with _ => _ end] => destruct x eqn:?
  | Some _ = Some _ => injection H as <-
  | None = Some _ => discriminate H
  end; apply X.
Qed.

Ltac calc := unfold balance, written in *; cbn [s_wr set_writer s_sink s_mn s_progress s_ch3 w_out length] in *; lia.
Lemma balance_writer k s s' : balance s -> step_writer k s = Some s' -> balance s'.
Proof.
  intros B H. unfold step_writer in H. unfold balance in B.
  destruct (s_wr s) as [|c [|b rest]|c|c|t|t] eqn:Ew.
  - destruct (s_ch2 s) as [|c ch2]; [destruct (codec_sender_alive s); [discriminate H|]|]; injection H as <-; calc.
  - injection H as <-. destruct (ck_last c); calc.
  - set (r := b :: rest) in *. destruct (w_room (s_sink s)) as [[|room]|] eqn:Er.
    + injection H as <-. calc.
    + destruct (Nat.leb 1 k && Nat.leb k (length r) && Nat.leb k (S room)) eqn:C; [|discriminate H]. injection H as <-.
      apply andb_true_iff in C as [C _]. apply andb_true_iff in C as [_ C]. apply Nat.leb_le in C.
      unfold balance, written in *; cbn [s_wr set_writer s_sink s_mn s_progress s_ch3 w_out] in *. rewrite app_length, firstn_length, skipn_length. lia.
    + destruct (Nat.leb 1 k && Nat.leb k (length r) && true) eqn:C; [|discriminate H]. injection H as <-.
      apply andb_true_iff in C as [C _]. apply andb_true_iff in C as [_ C]. apply Nat.leb_le in C.
      unfold balance, written in *; cbn [s_wr set_writer s_sink s_mn s_progress s_ch3 w_out] in *. rewrite app_length, firstn_length, skipn_length. lia.
  - destruct (flush (s_sink s)) as [[u|e|] w'] eqn:Ef; injection H as <-; unfold flush in Ef; destruct (w_flush_ok (s_sink s)); injection Ef; intros; subst; try discriminate; calc.
  - destruct (final_receiver_alive s); injection H as <-; [|calc].
    unfold balance, written in *; cbn [s_wr set_writer s_sink s_mn s_progress s_ch3 w_out] in *. rewrite map_app, list_sum_app. cbn [map list_sum fold_right]. lia.
  - injection H as <-. calc.
  - discriminate H.
Qed.

Lemma balance_main s s' : (exists nr nc ns nw nd nm out, Inv nr nc ns nw nd nm out s) -> balance s -> step_main p s = Some s' -> balance s'.
Proof.
  intros (nr & nc & ns & nw & nd & nm & out & I) B H. unfold step_main in H. unfold balance in B.
  assert (X : forall mn ch0 ch3 idx pg, written (set_main s mn ch0 ch3 idx pg) = written s -> balance (set_main s mn ch0 ch3 idx pg)).
  { intros mn ch0 ch3 idx pg E. unfold balance. rewrite E. exact B. }
  destruct (s_mn s) as [[|k]| |c w|w| |r] eqn:Em.
  - injection H as <-. apply X. unfold written. rewrite Em. reflexivity.
  - injection H as <-. apply X. unfold written. rewrite Em. reflexivity.
  - destruct (s_ch3 s) as [|c ch3] eqn:E3.
    + destruct (write_sender_alive s); [discriminate H|]. injection H as <-. apply X. unfold written. rewrite Em, E3. reflexivity.
    + destruct (i_mn _ _ _ _ _ _ _ _ _ _ _ I) as (Hp & Hc3 & _). destruct (i_order _ _ _ _ _ _ _ _ _ _ _ I) as (O1 & O2 & O3 & O4 & O5 & O6 & O7).
      rewrite E3 in Hc3. destruct (nd - nm) as [|j] eqn:Ed; [discriminate|]. cbn [seq map] in Hc3. injection Hc3 as -> Hc3.
      assert (Hnm : nm < length (D p src0)) by lia.
      cbn [ck_buf out_chunk] in H. rewrite (written_of p src0 (Hn p Hok) (Hreg p Hok)) in H by (try exact (Hcap64 p Hok); assumption).
      pose proof (D_length p src0 (Hn p Hok) (Hreg p Hok) nm Hnm) as DL.
      assert (Z : size_out (size_of p src0 nm) = length (nth nm (D p src0) [])) by (unfold size_out, size_of, lenN; rewrite Nat2N.id; lia).
      assert (Hrc : ck_cap (buf_resize (out_chunk p src0 nm) (input_buffer_size p)) = buffer_capacity p).
      { cbn. apply grow_le. pose proof (cap_enough_n p). unfold n, CAP in *. lia. }
      rewrite Hrc, Nat.eqb_refl in H. injection H as <-. apply X. unfold written. rewrite Em, E3. cbn [set_main s_progress s_mn s_ch3 pend map ck_buf out_chunk].
      rewrite app_nil_r, total_app. assert (total_out [size_of p src0 nm] = size_out (size_of p src0 nm)) as -> by apply Nat.add_0_r.
      rewrite Z. unfold list_sum. cbn [fold_right]. lia.
  - injection H as <-. apply X. unfold written. rewrite Em. reflexivity.
  - injection H as <-. apply X. unfold written. rewrite Em. cbn [set_main s_progress s_mn s_ch3 pend]. rewrite app_nil_r. reflexivity.
  - destruct (s_rd s), (s_cd s), (s_wr s); try discriminate H. injection H as <-. apply X. unfold written. rewrite Em. reflexivity.
  - discriminate H.
Qed.

Lemma balance_reach s : steps p (start src0 sk0) s -> balance s.
Proof.
  intros H. assert (K : forall s1, steps p (start src0 sk0) s1 -> balance s1 -> steps p s1 s -> balance s).
  { intros s1 R B S. induction S as [s|s s1 s2 St S IH]; [exact B|]. apply IH; [exact H|eapply steps_snoc; eassumption|].
    destruct St as [E|E|k E|E].
    - eapply balance_reader; eassumption.
    - eapply balance_codec; eassumption.
    - eapply balance_writer; eassumption.
    - eapply balance_main; [apply (inv_reach p src0 sk0 Hok); exact R|exact B|exact E]. }
  apply (K (start src0 sk0)); [constructor| |exact H]. unfold balance, written. cbn. lia.
Qed.

Lemma total_out_sum ws : (sumN ws + N.of_nat (p_out_asize p) * lenN ws <= N.of_nat (total_out ws) + N.of_nat (p_in_asize p) * lenN ws)%N.
Proof.
  induction ws as [|w ws IH]; [cbn; lia|]. change (total_out (w :: ws)) with (size_out w + total_out ws). change (sumN (w :: ws)) with (w + sumN ws)%N.
  unfold lenN in *. cbn [length]. rewrite Nat2N.inj_succ, !N.mul_succ_r. unfold size_out. lia.
Qed.

(** What has been reported is no more than the output, corrected by the announced change of the sizes. *)
Lemma reported_written s : steps p (start src0 sk0) s ->
  (sumN (s_progress s) + N.of_nat (p_out_asize p) * lenN (s_progress s) + lenN (w_out sk0) <= lenN (w_out (s_sink s)) + N.of_nat (p_in_asize p) * lenN (s_progress s))%N.
Proof.
  intros H. pose proof (balance_reach s H) as B. pose proof (total_out_sum (s_progress s)) as T.
  assert (length (w_out sk0) + total_out (s_progress s) <= length (w_out (s_sink s))).
  { unfold balance, written in B. rewrite total_app in B. destruct (s_wr s); lia. }
  unfold lenN in *. lia.
Qed.
End Written.

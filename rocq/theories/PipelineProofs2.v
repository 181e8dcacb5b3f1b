(** Consequences of the pipeline invariant: output, result, progress, liveness. *)
From Coq Require Import List NArith Bool Lia Arith.
From Coq.Strings Require Import Byte.
From Verif Require Import Base BaseFacts Shamir Errors Io HeaderIoSpec HeaderIoProofs Pipeline StreamSpec ChunkProofs PipelineProofs.
Import ListNotations.

Section Cons.
Context (p : pipe) (src0 : source) (sk0 : sink).
Notation n := (n p).
Notation E := (E p src0).
Notation D := (D p src0).
Notation er := (er src0).
Notation Inv := (Inv p src0 sk0).
Hypothesis (Hn : 1 <= n).

Lemma concat_firstn_prefix {A} k (l : list (list A)) : prefix_of (concat (firstn k l)) (concat l).
Proof. exists (concat (skipn k l)). rewrite <- concat_app, firstn_skipn. reflexivity. Qed.

Lemma prefix_trans {A} (a b c : list A) : prefix_of a b -> prefix_of b c -> prefix_of a c.
Proof. intros [x ->] [y ->]. exists (x ++ y). rewrite app_assoc. reflexivity. Qed.

Lemma prefix_firstn {A} (a b : list A) r : prefix_of a b -> length a <= r -> prefix_of a (firstn r b).
Proof.
  intros [x ->] H. exists (firstn (r - length a) x). rewrite firstn_app, firstn_all2 by assumption. reflexivity.
Qed.

Lemma prefix_same_length {A} (a b : list A) : prefix_of a b -> length b <= length a -> a = b.
Proof. intros [[|x c] ->] H; [symmetry; apply app_nil_r|]. rewrite app_length in H. cbn in H. lia. Qed.

Lemma inv_wr_prefix nr nc ns nw nd nm out s : Inv nr nc ns nw nd nm out s -> prefix_of out (concat (firstn nw D)).
Proof.
  intros I. pose proof (i_wr _ _ _ _ _ _ _ _ _ _ _ I) as H.
  assert (Hr : forall x, out ++ x = concat (firstn nw D) -> prefix_of out (concat (firstn nw D))).
  { intros x <-. exists x. reflexivity. }
  assert (Hrefl : out = concat (firstn nw D) -> prefix_of out (concat (firstn nw D))).
  { intros Ho. apply (Hr []). rewrite app_nil_r. assumption. }
  destruct (s_wr s) as [|c rest|c|c|t|t]; cbn in H.
  - apply Hrefl. apply H.
  - apply (Hr rest). apply H.
  - apply Hrefl. apply H.
  - apply Hrefl. apply H.
  - destruct t; try contradiction.
    + apply Hrefl. apply H.
    + destruct H as [(rest & _ & H & _)|H]; [exact (Hr _ H)|apply Hrefl; apply H].
  - destruct t; try contradiction.
    + apply Hrefl. apply H.
    + destruct H as [(rest & _ & H & _)|H]; [exact (Hr _ H)|apply Hrefl; apply H].
Qed.

Lemma inv_prefix nr nc ns nw nd nm out s : Inv nr nc ns nw nd nm out s ->
  prefix_of out (taken sk0 (concat D)).
Proof.
  intros I. pose proof (inv_wr_prefix _ _ _ _ _ _ _ _ I) as H.
  apply (fun H => prefix_trans _ _ _ H (concat_firstn_prefix nw D)) in H.
  destruct (i_sk _ _ _ _ _ _ _ _ _ _ _ I) as (_ & _ & Hroom).
  unfold taken. destruct (w_room sk0); [|assumption].
  apply prefix_firstn; [assumption|apply Hroom].
Qed.

Lemma inv_out nr nc ns nw nd nm out s : Inv nr nc ns nw nd nm out s -> w_out (s_sink s) = w_out sk0 ++ out.
Proof. intros I. apply (i_sk _ _ _ _ _ _ _ _ _ _ _ I). Qed.

Lemma reachable_prefix nr nc ns nw nd nm out s : Inv nr nc ns nw nd nm out s ->
  prefix_of (w_out (s_sink s)) (seq_out (p_conv p) n src0 sk0).
Proof.
  intros I. rewrite (inv_out _ _ _ _ _ _ _ _ I). unfold seq_out.
  destruct (inv_prefix _ _ _ _ _ _ _ _ I) as [x Hx]. exists x. rewrite <- app_assoc. f_equal. exact Hx.
Qed.

Lemma ok_iff : seq_input_ok (p_conv p) n src0 = true <-> er = false /\ length D = length E.
Proof.
  unfold seq_input_ok. rewrite andb_true_iff, negb_true_iff, convert_seq_ok. reflexivity.
Qed.

Lemma firstn_all_D k : length D <= k -> firstn k D = D.
Proof. apply firstn_all2. Qed.

Lemma taken_all out : length out <= match w_room sk0 with Some r => r | None => length out end ->
  out = concat D -> out = taken sk0 (concat D).
Proof. intros H ->. unfold taken. destruct (w_room sk0); [|reflexivity]. symmetry. apply firstn_all2. assumption. Qed.

(** When the call has returned. *)
Lemma inv_final nr nc ns nw nd nm out s r : Inv nr nc ns nw nd nm out s -> s_mn s = MRet r ->
  w_out (s_sink s) = seq_out (p_conv p) n src0 sk0 /\
  (r = Ok tt <-> seq_success (p_conv p) n src0 sk0) /\
  r <> Panic /\
  (r = Ok tt -> w_flushed (s_sink s) = true) /\
  (r = Ok tt -> nm = length E).
Proof.
  intros I Hm. pose proof (inv_out _ _ _ _ _ _ _ _ I) as Hout. pose proof (inv_prefix _ _ _ _ _ _ _ _ I) as Hpre.
  destruct I as [Iord Ird Icd Iwr Isk Imn _ _ _ _]. destruct Imn as (_ & _ & Imn). rewrite Hm in Imn.
  destruct Imn as (Hnm & a & b & c & Ha & Hb & Hc & ->). rewrite Ha, Hb, Hc in *. cbn in Ird, Icd, Iwr.
  destruct Isk as (Hs1 & Hs2 & Hs3).
  pose proof (D_E p src0) as HDE.
  assert (Hroom : length out <= match w_room sk0 with Some r => r | None => length out end).
  { destruct (w_room sk0); [apply Hs3|lia]. }
  (* facts about success of the sequential loop *)
  assert (Hsucc : seq_success (p_conv p) n src0 sk0 ->
    er = false /\ length D = length E /\ room_for sk0 (length (concat D)) /\ w_flush_ok sk0 = true).
  { intros (H1 & H2 & H3). apply ok_iff in H1. tauto. }
  assert (HsuccI : er = false -> length D = length E -> room_for sk0 (length (concat D)) ->
    w_flush_ok sk0 = true -> seq_success (p_conv p) n src0 sk0).
  { intros H1 H2 H3 H4. split; [apply ok_iff; auto|]. split; assumption. }
  unfold seq_out. fold D. rewrite Hout.
  (* the writer *)
  destruct c as [|e| |]; try contradiction.
  - destruct Iwr as (-> & -> & Ho & Hfl & _).
    (* writer ended normally: the converter's end decides *)
    assert (Hfull : concat (firstn ns D) = concat D -> out = taken sk0 (concat D)).
    { intros H. apply taken_all; [assumption|congruence]. }
    destruct b as [|e| |].
    + destruct Icd as (Hn1 & Hn2 & _).
      destruct a as [|e| |]; try contradiction.
      * destruct Ird as [[H1 H2]|[H|H]]; [|contradiction H; reflexivity|contradiction H; reflexivity].
        assert (Hlen : length D = length E) by lia.
        assert (Hfd : firstn ns D = D) by (apply firstn_all_D; lia).
        assert (HoD : out = concat D) by congruence.
        destruct (Hfl ltac:(lia) H2) as [Hf1 Hf2].
        split; [f_equal; apply taken_all; assumption|].
        split; [|split; [discriminate|split; [auto|lia]]].
        split; [|reflexivity]. intros _. apply HsuccI; try assumption; try congruence.
        unfold room_for. destruct (w_room sk0); [|exact Logic.I]. rewrite <- HoD. assumption.
      * destruct Ird as [H1 H2].
        split; [f_equal; apply Hfull; rewrite firstn_all_D by lia; reflexivity|].
        split; [|split; [discriminate|split; discriminate]].
        split; [discriminate|]. intros H. apply Hsucc in H. destruct H as (H & _). congruence.
    + destruct Icd as [H1 H2].
      split; [f_equal; apply Hfull; rewrite firstn_all_D by lia; reflexivity|].
      destruct a as [|ea| |]; try contradiction; cbn;
        (split; [|split; [discriminate|split; discriminate]]);
        (split; [discriminate|]); intros H; apply Hsucc in H; destruct H as (_ & H & _); lia.
    + contradiction Icd; reflexivity.
    + destruct Icd as [H1 H2].
      split; [f_equal; apply Hfull; rewrite firstn_all_D by lia; reflexivity|].
      destruct a as [|ea| |]; try contradiction; cbn;
        (split; [|split; [discriminate|split; discriminate]]);
        (split; [discriminate|]); intros H; apply Hsucc in H; destruct H as (_ & H & _); lia.
  - assert (Hfail : ~ seq_success (p_conv p) n src0 sk0 /\ out = taken sk0 (concat D)).
    { destruct Iwr as [(rest & Hne & Hpart & Hr)|(Hflush & Ho & Hnw)].
      - destruct (concat_firstn_prefix nw D) as [y Hy]. rewrite <- Hpart in Hy. rewrite <- app_assoc in Hy.
        split.
        + intros H. apply Hsucc in H. destruct H as (_ & _ & H & _). unfold room_for in H. rewrite Hr in H.
          rewrite Hy, !app_length in H. destruct rest; [contradiction|]. cbn in H. lia.
        + unfold taken. rewrite Hr, Hy. symmetry. apply firstn_app_exact.
      - split.
        + intros H. apply Hsucc in H. destruct H as (_ & _ & _ & H). congruence.
        + apply taken_all; [assumption|]. rewrite Ho, firstn_all_D by lia. reflexivity. }
    destruct Hfail as [Hf1 Hf2]. split; [f_equal; assumption|].
    assert (Hjr : join_result a b (TErr e) <> Ok tt /\ join_result a b (TErr e) <> Panic).
    { destruct a; destruct b; cbn; split; discriminate. }
    destruct Hjr as [Hj1 Hj2]. split; [tauto|]. split; [assumption|]. tauto.
Qed.

(** Progress. *)
Lemma sum_app a b : sumN (a ++ b) = (sumN a + sumN b)%N.
Proof. induction a as [|x a IH]; cbn; [reflexivity|]. fold (sumN (a ++ b)) (sumN a). rewrite IH. lia. Qed.

Lemma sum_sizes (l : list (bytes * bool)) k : k <= length l ->
  sumN (map (fun i => lenN (fst (nth i l ([], false)))) (seq 0 k)) = lenN (concat (map fst (firstn k l))).
Proof.
  induction k as [|k IH]; intros Hk; [reflexivity|].
  rewrite seq_snoc, map_app, sum_app, IH by lia. rewrite firstn_S_snoc with (d := ([], false)) by lia.
  rewrite map_app, concat_app. cbn. unfold lenN. rewrite !app_length. cbn. lia.
Qed.

Lemma input_concat : er = false -> concat (map fst E) = flat src0.
Proof.
  intros H. unfold PipelineProofs.E, input_chunks. unfold PipelineProofs.er in H. rewrite H.
  rewrite flag_last_map_fst. apply chunks_concat. exact Hn.
Qed.

Lemma input_concat_le : length (concat (map fst E)) <= length (flat src0).
Proof.
  destruct er eqn:H.
  - unfold PipelineProofs.E, input_chunks. unfold PipelineProofs.er in H. rewrite H.
    rewrite map_map. cbn [fst]. rewrite map_id.
    rewrite <- (chunks_concat n (flat src0) Hn) at 2.
    destruct (chunks n (flat src0)) as [|x l]; [cbn; lia|].
    rewrite (app_removelast_last x (l := x :: l)) at 2 by discriminate.
    rewrite concat_app, app_length. lia.
  - rewrite input_concat by assumption. lia.
Qed.

Lemma inv_progress nr nc ns nw nd nm out s : Inv nr nc ns nw nd nm out s ->
  (sumN (s_progress s) <= lenN (flat src0))%N /\
  (forall r, s_mn s = MRet r -> nm = length E -> er = false -> sumN (s_progress s) = lenN (flat src0)).
Proof.
  intros I. destruct I as [Iord Ird Icd Iwr Isk Imn _ _ _ _]. destruct Imn as (Hp & _ & _).
  pose proof (D_E p src0) as HDE.
  assert (Hs : (sumN (s_progress s) + sumN (pend (s_mn s)) = lenN (concat (map fst (firstn nm E))))%N).
  { rewrite <- sum_app, Hp. apply sum_sizes. lia. }
  split.
  - assert (Hle : (lenN (concat (map fst (firstn nm E))) <= lenN (flat src0))%N).
    { pose proof input_concat_le as H1. rewrite <- (firstn_skipn nm E) in H1. rewrite map_app, concat_app, app_length in H1.
      unfold lenN. lia. }
    lia.
  - intros r Hr -> He. rewrite Hr in Hs. cbn in Hs. rewrite firstn_all in Hs. rewrite input_concat in Hs by assumption. lia.
Qed.

(** Liveness: something can always happen until the call has returned. *)
Lemma inv_live nr nc ns nw nd nm out s : Inv nr nc ns nw nd nm out s ->
  (forall r, s_mn s <> MRet r) -> exists s', step p s s'.
Proof.
  intros I Hm. destruct s as [src rd ch0 ch1 cd ch2 wr sk ch3 mn idx pg].
  destruct I as [Iord Ird Icd Iwr Isk Imn Ich0 Ich1 Ich2 Icnt].
  cbn [s_src s_rd s_ch0 s_ch1 s_cd s_ch2 s_wr s_sink s_ch3 s_mn s_idx s_progress] in *.
  (* reader that is not waiting for a chunk and not blocked on a full queue *)
  assert (Hrd : (match rd with RWait _ => ch0 <> [] \/ mn = MJoin | RSend _ _ => ch1 = [] \/ cd_alive cd = false
                 | RDone _ => False | _ => True end) ->
    exists s', step p (mkPstate src rd ch0 ch1 cd ch2 wr sk ch3 mn idx pg) s').
  { intros H. destruct rd as [lb|c ptr|c nx|t|t].
    - destruct ch0 as [|c ch0].
      + destruct H as [H|H]; [contradiction H; reflexivity|]. subst mn.
        eexists. apply StepReader. reflexivity.
      + destruct (start_chunk lb c) as [c' ptr] eqn:Es. eexists. apply StepReader. unfold step_reader. cbn. rewrite Es. reflexivity.
    - destruct (Nat.leb (length (ck_buf c)) ptr) eqn:El.
      + destruct (full_chunk c) as [c' lb] eqn:Ef. eexists. apply StepReader. unfold step_reader. cbn [s_rd]. rewrite El, Ef. reflexivity.
      + destruct src as [|[[|x d]| |] src]; eexists; apply StepReader; unfold step_reader; cbn [s_rd s_src]; rewrite El; reflexivity.
    - destruct (cd_alive cd) eqn:Ea.
      + destruct H as [->|H]; [|discriminate]. eexists. apply StepReader. unfold step_reader, codec_receiver_alive. cbn [s_rd s_cd s_ch1].
        fold (cd_alive cd). rewrite Ea. reflexivity.
      + eexists. apply StepReader. unfold step_reader, codec_receiver_alive. cbn [s_rd s_cd s_ch1].
        fold (cd_alive cd). rewrite Ea. reflexivity.
    - eexists. apply StepReader. reflexivity.
    - contradiction. }
  assert (Hcd : (match cd with CWait => ch1 <> [] \/ exists r, rd = RDone r | CSend _ => ch2 = [] \/ wr_alive wr = false
                 | CDone _ => False | _ => True end) ->
    exists s', step p (mkPstate src rd ch0 ch1 cd ch2 wr sk ch3 mn idx pg) s').
  { intros H. destruct cd as [|c|c|t|t].
    - destruct ch1 as [|c ch1].
      + destruct H as [H|[r ->]]; [contradiction H; reflexivity|]. eexists. apply StepCodec. reflexivity.
      + eexists. apply StepCodec. reflexivity.
    - destruct (p_conv p (ck_buf c) (ck_last c) (ck_idx c)) eqn:Ec; eexists; apply StepCodec; unfold step_codec; cbn [s_cd]; rewrite Ec; reflexivity.
    - destruct (wr_alive wr) eqn:Ea.
      + destruct H as [->|H]; [|discriminate]. eexists. apply StepCodec. unfold step_codec, write_receiver_alive. cbn [s_cd s_wr s_ch2].
        fold (wr_alive wr). rewrite Ea. reflexivity.
      + eexists. apply StepCodec. unfold step_codec, write_receiver_alive. cbn [s_cd s_wr s_ch2].
        fold (wr_alive wr). rewrite Ea. reflexivity.
    - eexists. apply StepCodec. reflexivity.
    - contradiction. }
  assert (Hwr : (match wr with WWait => ch2 <> [] \/ exists r, cd = CDone r | WDone _ => False | _ => True end) ->
    exists s', step p (mkPstate src rd ch0 ch1 cd ch2 wr sk ch3 mn idx pg) s').
  { intros H. destruct wr as [|c rest|c|c|t|t].
    - destruct ch2 as [|c ch2].
      + destruct H as [H|[r ->]]; [contradiction H; reflexivity|]. eexists. apply (StepWriter _ _ _ 0). reflexivity.
      + eexists. apply (StepWriter _ _ _ 0). reflexivity.
    - destruct rest as [|x rest]; [eexists; apply (StepWriter _ _ _ 0); reflexivity|].
      destruct (w_room sk) as [[|r]|] eqn:Er.
      + eexists. apply (StepWriter _ _ _ 1). unfold step_writer. cbn [s_wr s_sink]. rewrite Er. reflexivity.
      + eexists. apply (StepWriter _ _ _ 1). unfold step_writer. cbn [s_wr s_sink]. rewrite Er. reflexivity.
      + eexists. apply (StepWriter _ _ _ 1). unfold step_writer. cbn [s_wr s_sink]. rewrite Er. reflexivity.
    - destruct (w_flush_ok sk) eqn:Ef; eexists; apply (StepWriter _ _ _ 0); unfold step_writer, flush; cbn [s_wr s_sink]; rewrite Ef; reflexivity.
    - destruct (final_receiver_alive (mkPstate src rd ch0 ch1 cd ch2 (WSend c) sk ch3 mn idx pg)) eqn:Ef;
        eexists; apply (StepWriter _ _ _ 0); unfold step_writer; cbn [s_wr]; rewrite Ef; reflexivity.
    - eexists. apply (StepWriter _ _ _ 0). reflexivity.
    - contradiction. }
  assert (Hmn : (match mn with MWait => ch3 <> [] \/ exists r, wr = WDone r
                 | MJoin => exists a b c, rd = RDone a /\ cd = CDone b /\ wr = WDone c
                 | MRet _ => False | _ => True end) ->
    exists s', step p (mkPstate src rd ch0 ch1 cd ch2 wr sk ch3 mn idx pg) s').
  { intros H. destruct mn as [[|k]| |c w|w| |r]; try contradiction; try (eexists; apply StepMain; reflexivity).
    - destruct ch3 as [|c ch3].
      + destruct H as [H|[r ->]]; [contradiction H; reflexivity|]. eexists. apply StepMain. reflexivity.
      + destruct (Nat.eqb (ck_cap (buf_resize c (input_buffer_size p))) (buffer_capacity p)) eqn:Ec;
          eexists; apply StepMain; unfold step_main; cbn [s_mn s_ch3]; rewrite Ec; reflexivity.
    - destruct H as (a & b & c & -> & -> & ->). eexists. apply StepMain. reflexivity. }
  (* the threads that have ended *)
  assert (Hdead : mn = MJoin -> exists s', step p (mkPstate src rd ch0 ch1 cd ch2 wr sk ch3 mn idx pg) s').
  { intros ->. destruct Imn as (_ & _ & [t Ht] & _). subst wr.
    destruct cd as [|c|c|t'|t'].
    - destruct ch1 as [|c1 ch1].
      + destruct rd as [lb|c ptr|c nx|r|r]; try (apply Hrd; cbn; auto; fail).
        apply Hcd. right. eauto.
      + apply Hcd. left. discriminate.
    - apply Hcd. exact Logic.I.
    - apply Hcd. right. reflexivity.
    - apply Hcd. exact Logic.I.
    - destruct rd as [lb|c ptr|c nx|r|r]; try (apply Hrd; cbn; auto; fail).
      apply Hmn. eauto 8. }
  destruct mn as [k| |c w|w| |r]; try (apply Hmn; exact Logic.I); [|apply Hdead; reflexivity|contradiction (Hm r); reflexivity].
  (* main waits for a chunk *)
  destruct ch3 as [|c3 ch3]; [|apply Hmn; left; discriminate].
  destruct wr as [|c rest|c|c|t|t]; try (apply Hwr; exact Logic.I); [|apply Hmn; right; eauto].
  destruct ch2 as [|c2 ch2]; [|apply Hwr; left; discriminate].
  destruct cd as [|c|c|t|t]; try (apply Hcd; cbn; auto; fail); [|apply Hwr; right; eauto].
  destruct ch1 as [|c1 ch1]; [|apply Hcd; left; discriminate].
  destruct rd as [lb|c ptr|c nx|r|r]; try (apply Hrd; cbn; auto; fail); [|apply Hcd; right; eauto].
  destruct ch0 as [|c0 ch0]; [|apply Hrd; left; discriminate].
  cbn in Icnt. destruct Icnt as [_ Icnt]. specialize (Icnt eq_refl eq_refl eq_refl). discriminate.
Qed.

(** Termination: every step decreases this number. *)
Fixpoint src_weight (s : source) : nat :=
  match s with
  | [] => 0
  | RData d :: s' => 14 * length d + 1 + src_weight s'
  | _ :: s' => 1 + src_weight s'
  end.

Definition rd_weight (rd : rd_state) : nat :=
  match rd with
  | RWait lb => 20 + match lb with Some _ => 13 | None => 0 end
  | RFill _ ptr => 20 + 13 * ptr
  | RSend _ (Some lb) => 32 + match lb with Some _ => 13 | None => 0 end
  | RSend _ None => 14
  | RClose _ => 1
  | RDone _ => 0
  end.
Definition cd_weight (cd : cd_state) : nat :=
  match cd with CWait => 2 | CConv _ => 12 | CSend _ => 11 | CClose _ => 1 | CDone _ => 0 end.
Definition wr_weight (wr : wr_state) : nat :=
  match wr with WWait => 2 | WWrite _ _ => 9 | WFlush _ => 8 | WSend _ => 7 | WClose _ => 1 | WDone _ => 0 end.
Definition mn_weight (mn : mn_state) : nat :=
  match mn with MInit k => 3 * k + 5 | MWait => 4 | MSend _ _ => 7 | MProgress _ => 5 | MJoin => 1 | MRet _ => 0 end.

Definition weight (s : pstate) : nat :=
  src_weight (s_src s) + rd_weight (s_rd s) + length (s_ch0 s) + 11 * length (s_ch1 s) + cd_weight (s_cd s)
  + 8 * length (s_ch2 s) + wr_weight (s_wr s) + 4 * length (s_ch3 s) + mn_weight (s_mn s)
  + (length (w_out sk0 ++ concat D) - length (w_out (s_sink s))).

Lemma push_back_weight d s : src_weight (push_back d s) <= 14 * length d + 1 + src_weight s.
Proof. destruct d; cbn; lia. Qed.

Lemma push_back_weight_nil s : src_weight (push_back [] s) = src_weight s.
Proof. reflexivity. Qed.

Lemma inv_weight nr nc ns nw nd nm out s s' : Inv nr nc ns nw nd nm out s -> step p s s' -> weight s' < weight s.
Proof.
  intros I Hs. pose proof (inv_wr_prefix _ _ _ _ _ _ _ _ I) as Hpre.
  destruct s as [src rd ch0 ch1 cd ch2 wr sk ch3 mn idx pg].
  destruct I as [Iord Ird Icd Iwr Isk Imn Ich0 Ich1 Ich2 Icnt]. unfold weight.
  cbn [s_src s_rd s_ch0 s_ch1 s_cd s_ch2 s_wr s_sink s_ch3 s_mn s_idx s_progress] in *.
  destruct Hs as [H|H|k H|H].
  - unfold step_reader, set_reader in H. cbn [s_src s_rd s_ch0 s_ch1 s_cd s_ch2 s_wr s_sink s_ch3 s_mn s_idx s_progress] in H.
    destruct rd as [lb|c ptr|c nx|t|t].
    + destruct ch0 as [|c ch0].
      * destruct (initial_sender_alive _); [discriminate|]. injection H as <-. cbn. lia.
      * unfold start_chunk in H. destruct lb as [b|]; injection H as <-; cbn; lia.
    + destruct Ird as (Hlt & Hl & Hp & Hcap & Hidx & Hd & Her).
      destruct (Nat.leb_spec (length (ck_buf c)) ptr) as [Hfull|Hroom].
      * unfold full_chunk in H. injection H as <-. cbn -[Nat.mul Nat.sub nth_error].
        destruct (nth_error _ _); lia.
      * destruct src as [|[[|x d]| |] src].
        -- injection H as <-. cbn -[Nat.mul Nat.sub]. lia.
        -- injection H as <-. cbn -[Nat.mul Nat.sub]. lia.
        -- remember (x :: d) as e eqn:Ee.
           assert (He : 1 <= length e) by (subst; cbn; lia).
           remember (Nat.min (length e) (length (ck_buf c) - ptr)) as k eqn:Ek.
           injection H as <-. cbn [s_src s_rd s_ch0 s_ch1 s_cd s_ch2 s_wr s_sink s_ch3 s_mn s_idx s_progress].
           pose proof (push_back_weight (skipn k e) src) as Hw. rewrite skipn_length in Hw.
           cbn [rd_weight src_weight]. lia.
        -- injection H as <-. cbn -[Nat.mul Nat.sub]. lia.
        -- injection H as <-. cbn -[Nat.mul Nat.sub]. lia.
    + destruct (codec_receiver_alive _).
      * destruct ch1; [|discriminate]. injection H as <-. destruct nx as [lb|]; cbn -[Nat.mul Nat.sub]; [destruct lb|]; cbn; lia.
      * injection H as <-. cbn -[Nat.mul Nat.sub]. destruct nx as [[]|]; lia.
    + injection H as <-. cbn. lia.
    + discriminate.
  - unfold step_codec, set_codec in H. cbn [s_src s_rd s_ch0 s_ch1 s_cd s_ch2 s_wr s_sink s_ch3 s_mn s_idx s_progress] in H.
    destruct cd as [|c|c|t|t].
    + destruct ch1 as [|c ch1].
      * destruct (read_sender_alive _); [discriminate|]. injection H as <-. cbn. lia.
      * injection H as <-. cbn. lia.
    + destruct (p_conv p _ _ _); injection H as <-; cbn; lia.
    + destruct (write_receiver_alive _).
      * destruct ch2; [|discriminate]. injection H as <-. cbn. lia.
      * injection H as <-. cbn. lia.
    + injection H as <-. cbn. lia.
    + discriminate.
  - unfold step_writer, set_writer in H. cbn [s_src s_rd s_ch0 s_ch1 s_cd s_ch2 s_wr s_sink s_ch3 s_mn s_idx s_progress] in H.
    destruct wr as [|c rest|c|c|t|t].
    + destruct ch2 as [|c ch2].
      * destruct (codec_sender_alive _); [discriminate|]. injection H as <-. cbn. lia.
      * injection H as <-. cbn. lia.
    + destruct rest as [|x rest].
      * injection H as <-. destruct (ck_last c); cbn; lia.
      * remember (x :: rest) as r eqn:Er.
        destruct Iwr as (Hnw & _ & Ho). destruct Isk as (Hs1 & _ & _).
        assert (Hbig : length (w_out sk) + length r <= length (w_out sk0 ++ concat D)).
        { rewrite Hs1, !app_length. destruct (concat_firstn_prefix nw D) as [y Hy]. rewrite Hy, <- Ho, !app_length. lia. }
        assert (Hwr : (exists w', length (w_out w') = length (w_out sk) + k /\ 1 <= k <= length r /\
            s' = mkPstate src rd ch0 ch1 cd ch2 (WWrite c (skipn k r)) w' ch3 mn idx pg)
          \/ s' = mkPstate src rd ch0 ch1 cd ch2 (WClose (TErr EIo)) sk ch3 mn idx pg).
        { rewrite Er in H. rewrite <- Er in H. destruct (w_room sk) as [[|q]|].
          - right. congruence.
          - left. destruct (Nat.leb 1 k && Nat.leb k (length r) && Nat.leb k (S q)) eqn:Eb; [|discriminate].
            apply andb_prop in Eb. destruct Eb as [Eb Eb3]. apply andb_prop in Eb. destruct Eb as [Eb1 Eb2].
            apply Nat.leb_le in Eb1, Eb2, Eb3. eexists. split; [|split; [|symmetry; injection H; intros Hx; exact Hx]].
            + cbn. rewrite app_length, firstn_length_le by assumption. reflexivity.
            + lia.
          - left. destruct (Nat.leb 1 k && Nat.leb k (length r) && true) eqn:Eb; [|discriminate].
            apply andb_prop in Eb. destruct Eb as [Eb Eb3]. apply andb_prop in Eb. destruct Eb as [Eb1 Eb2].
            apply Nat.leb_le in Eb1, Eb2. eexists. split; [|split; [|symmetry; injection H; intros Hx; exact Hx]].
            + cbn. rewrite app_length, firstn_length_le by assumption. reflexivity.
            + lia. }
        destruct Hwr as [(w' & Hw' & Hk & ->)| -> ]; cbn -[Nat.sub Nat.mul]; lia.
    + unfold flush in H. destruct (w_flush_ok sk); injection H as <-; cbn; lia.
    + destruct (final_receiver_alive _); injection H as <-; cbn; rewrite ?app_length; cbn; lia.
    + injection H as <-. cbn. lia.
    + discriminate.
  - unfold step_main, set_main in H. cbn [s_src s_rd s_ch0 s_ch1 s_cd s_ch2 s_wr s_sink s_ch3 s_mn s_idx s_progress] in H.
    destruct mn as [[|k]| |c w|w| |r].
    + injection H as <-. cbn. lia.
    + injection H as <-. cbn -[supply Nat.mul]. rewrite (supply_length p Hn). cbn [s_ch0]. destruct (read_receiver_alive _); lia.
    + destruct ch3 as [|c ch3].
      * destruct (write_sender_alive _); [discriminate|]. injection H as <-. cbn. lia.
      * destruct (Nat.eqb _ _); injection H as <-; cbn; lia.
    + injection H as <-. cbn -[supply Nat.mul]. rewrite (supply_length p Hn). cbn [s_ch0]. destruct (read_receiver_alive _); lia.
    + injection H as <-. cbn. lia.
    + destruct rd; try discriminate. destruct cd; try discriminate. destruct wr; try discriminate.
      injection H as <-. cbn. lia.
    + discriminate.
Qed.

End Cons.

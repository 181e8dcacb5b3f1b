(** Invariant of the pipeline. *)
From Coq Require Import List NArith Bool Lia Arith.
From Coq.Strings Require Import Byte.
From Verif Require Import Base BaseFacts Shamir Errors Io HeaderIoSpec HeaderIoProofs Pipeline StreamSpec ChunkProofs.
Import ListNotations.

(** ** Sequential conversion *)

Section Convert.
Context (conv : bytes -> bool -> N -> outcome err bytes).

Definition conv_at (k : nat) (E : list (bytes * bool)) (i : nat) : outcome err bytes :=
  conv (fst (nth i E ([], false))) (snd (nth i E ([], false))) (wrap64 (N.of_nat (k + i))).

Lemma conv_at_S k c E i : conv_at k (c :: E) (S i) = conv_at (S k) E i.
Proof. unfold conv_at. cbn [nth]. do 3 f_equal. lia. Qed.

Lemma convert_seq_le k E : length (fst (convert_seq conv k E)) <= length E.
Proof.
  revert k. induction E as [|[c l] E IH]; intros k; cbn; [lia|].
  destruct (conv c l _); cbn; try lia.
  specialize (IH (S k)). destruct (convert_seq conv (S k) E); cbn in *. lia.
Qed.

Lemma convert_seq_nth k E i : i < length (fst (convert_seq conv k E)) ->
  conv_at k E i = Ok (nth i (fst (convert_seq conv k E)) []).
Proof.
  revert k i. induction E as [|[c l] E IH]; intros k i; cbn; [lia|].
  destruct (conv c l _) as [b| |] eqn:Ec; cbn; try lia.
  specialize (IH (S k)). destruct (convert_seq conv (S k) E) as [bs ok]; cbn in *.
  destruct i as [|i]; intros Hi.
  - unfold conv_at. cbn. rewrite Nat.add_0_r. assumption.
  - rewrite conv_at_S. apply IH. lia.
Qed.

Lemma convert_seq_stop k E : length (fst (convert_seq conv k E)) < length E ->
  forall b, conv_at k E (length (fst (convert_seq conv k E))) <> Ok b.
Proof.
  revert k. induction E as [|[c l] E IH]; intros k; cbn; [lia|].
  destruct (conv c l _) as [b| |] eqn:Ec; cbn.
  - specialize (IH (S k)). destruct (convert_seq conv (S k) E) as [bs ok]; cbn in *.
    intros H b'. rewrite conv_at_S. apply IH. lia.
  - intros _ b'. unfold conv_at. cbn. rewrite Nat.add_0_r, Ec. discriminate.
  - intros _ b'. unfold conv_at. cbn. rewrite Nat.add_0_r, Ec. discriminate.
Qed.

Lemma convert_seq_ok k E : snd (convert_seq conv k E) = true <-> length (fst (convert_seq conv k E)) = length E.
Proof.
  revert k. induction E as [|[c l] E IH]; intros k; cbn; [tauto|].
  destruct (conv c l _) as [b| |] eqn:Ec; cbn; [|split; discriminate..].
  specialize (IH (S k)). destruct (convert_seq conv (S k) E) as [bs ok]; cbn in *. rewrite IH. lia.
Qed.

Lemma convert_seq_reach k E i b : i <= length (fst (convert_seq conv k E)) -> i < length E ->
  conv_at k E i = Ok b ->
  i < length (fst (convert_seq conv k E)) /\ nth i (fst (convert_seq conv k E)) [] = b.
Proof.
  intros Hi HE Hc. assert (i < length (fst (convert_seq conv k E))).
  { destruct (Nat.eq_dec i (length (fst (convert_seq conv k E)))) as [->|]; [|lia].
    exfalso. eapply convert_seq_stop; eauto. }
  split; [assumption|]. rewrite convert_seq_nth in Hc by assumption. congruence.
Qed.

Lemma convert_seq_fail k E i : i <= length (fst (convert_seq conv k E)) ->
  (forall b, conv_at k E i <> Ok b) -> i = length (fst (convert_seq conv k E)).
Proof.
  intros Hi Hc. destruct (Nat.eq_dec i (length (fst (convert_seq conv k E)))); [assumption|].
  exfalso. eapply Hc. apply convert_seq_nth. lia.
Qed.

End Convert.

(** ** Small facts *)

Lemma overwrite_firstn buf ptr d : ptr + length d <= length buf ->
  firstn (ptr + length d) (overwrite buf ptr d) = firstn ptr buf ++ d.
Proof.
  intros H. unfold overwrite. rewrite app_assoc.
  replace (ptr + length d) with (length (firstn ptr buf ++ d)) at 1.
  - apply firstn_app_exact.
  - rewrite app_length, firstn_length. lia.
Qed.

Lemma overwrite_length buf ptr d : ptr + length d <= length buf -> length (overwrite buf ptr d) = length buf.
Proof. intros H. unfold overwrite. rewrite !app_length, firstn_length, skipn_length. lia. Qed.

Lemma grow_le cap len : len <= cap -> grow cap len = cap.
Proof. unfold grow. intros H. destruct (Nat.leb_spec len cap); [reflexivity|lia]. Qed.

Lemma nth_error_some_nth {A} (l : list A) i d : i < length l -> nth_error l i = Some (nth i l d).
Proof. intros H. apply nth_error_nth'. assumption. Qed.

Lemma snoc_nth_error {A} (l : list A) k : length l = S k ->
  exists b, nth_error l k = Some b /\ l = firstn k l ++ [b].
Proof.
  intros H. destruct (nth_error l k) as [b|] eqn:E.
  - exists b. split; [reflexivity|]. apply nth_error_split in E. destruct E as (l1 & l2 & -> & Hl).
    rewrite app_length in H. cbn in H. destruct l2; [|cbn in H; lia]. subst k.
    rewrite firstn_app_exact. reflexivity.
  - apply nth_error_None in E. lia.
Qed.

Lemma firstn_S_snoc {A} (l : list A) i d : i < length l -> firstn (S i) l = firstn i l ++ [nth i l d].
Proof.
  revert i. induction l as [|a l IH]; intros [|i] H; cbn in *; try lia; [reflexivity|].
  f_equal. apply IH. lia.
Qed.

Lemma seq_snoc a k : seq a (S k) = seq a k ++ [a + k].
Proof. rewrite <- Nat.add_1_r, seq_app. reflexivity. Qed.

(** ** The invariant *)

Section Inv.
Context (p : pipe) (src0 : source) (sk0 : sink).

Definition n := input_buffer_size p.
Definition CAP := buffer_capacity p.
Definition data := flat src0.
Definition er := ends_in_error src0.
Definition cs := chunks n data.
Definition E := input_chunks n src0.
Definition D := seq_converted (p_conv p) n src0.
Definition Ei (i : nat) := nth i E ([], false).
Definition in_chunk (i : nat) : chunk := mkChunk (fst (Ei i)) CAP (snd (Ei i)) (wrap64 (N.of_nat i)).
Definition out_chunk (i : nat) : chunk := mkChunk (nth i D []) CAP (snd (Ei i)) (wrap64 (N.of_nat i)).

Definition cd_failed (cd : cd_state) : Prop :=
  match cd with CClose t | CDone t => t <> TOk | _ => False end.
Definition wr_failed (wr : wr_state) : Prop :=
  match wr with WClose t | WDone t => t <> TOk | _ => False end.

Definition opt_bytes (lb : option byte) : bytes := match lb with Some b => [b] | None => [] end.

Definition rd_inv (nr : nat) (rd : rd_state) (src : source) (cd : cd_state) (wr : wr_state) : Prop :=
  match rd with
  | RWait lb => nr < length cs /\ skipn (nr * n) data = opt_bytes lb ++ flat src /\ ends_in_error src = er
  | RFill c ptr =>
      nr < length cs /\ length (ck_buf c) = S n /\ ptr <= S n /\ ck_cap c = CAP /\
      ck_idx c = wrap64 (N.of_nat nr) /\
      skipn (nr * n) data = firstn ptr (ck_buf c) ++ flat src /\ ends_in_error src = er
  | RSend c next =>
      nr < length E /\ c = in_chunk nr /\
      match next with
      | Some (Some b) =>
          S nr < length cs /\ skipn (S nr * n) data = b :: flat src /\ ends_in_error src = er
      | Some None => False
      | None => S nr = length E /\ er = false
      end
  | RClose t | RDone t =>
      match t with
      | TOk => (nr = length E /\ er = false) \/ cd_failed cd \/ wr_failed wr
      | TErr _ => nr = length E /\ er = true
      | TSend => cd_failed cd
      | TPanic => False
      end
  end.

Definition cd_inv (nr nc ns : nat) (rd : rd_state) (cd : cd_state) (wr : wr_state) : Prop :=
  match cd with
  | CWait => ns = nc
  | CConv c => nc = S ns /\ c = in_chunk ns
  | CSend c => nc = S ns /\ c = out_chunk ns /\ ns < length D
  | CClose t | CDone t =>
      match t with
      | TOk => ns = nc /\ nc = nr /\ exists r, rd = RDone r
      | TErr _ | TPanic => ns = length D /\ ns < length E
      | TSend => wr_failed wr
      end
  end.

Definition flushed_if_last (k : nat) (sk : sink) : Prop :=
  k = length E -> er = false -> w_flushed sk = true /\ w_flush_ok sk = true.

Definition wr_inv (ns nw nd : nat) (cd : cd_state) (wr : wr_state) (sk : sink) (out : bytes) : Prop :=
  match wr with
  | WWait => nd = nw /\ out = concat (firstn nw D) /\ flushed_if_last nd sk
  | WWrite c rest => nw = S nd /\ c = out_chunk nd /\ out ++ rest = concat (firstn nw D)
  | WFlush c => nw = S nd /\ c = out_chunk nd /\ out = concat (firstn nw D) /\ nw = length E /\ er = false
  | WSend c => nw = S nd /\ c = out_chunk nd /\ out = concat (firstn nw D) /\ flushed_if_last nw sk
  | WClose t | WDone t =>
      match t with
      | TOk => nd = nw /\ nw = ns /\ out = concat (firstn nw D) /\ flushed_if_last nd sk /\ exists r, cd = CDone r
      | TErr _ =>
          (exists rest, rest <> [] /\ out ++ rest = concat (firstn nw D) /\ w_room sk0 = Some (length out))
          \/ (w_flush_ok sk0 = false /\ out = concat (firstn nw D) /\ nw = length E)
      | TSend | TPanic => False
      end
  end.

Definition sink_inv (sk : sink) (out : bytes) : Prop :=
  w_out sk = w_out sk0 ++ out /\ w_flush_ok sk = w_flush_ok sk0 /\
  match w_room sk0 with
  | None => w_room sk = None
  | Some r => w_room sk = Some (r - length out) /\ length out <= r
  end.

Definition pend (mn : mn_state) : list N :=
  match mn with MSend _ w | MProgress w => [w] | _ => [] end.

Definition size_of (i : nat) : N := lenN (fst (Ei i)).

Definition mn_inv (nm nd : nat) (rd : rd_state) (cd : cd_state) (wr : wr_state) (ch3 : list chunk)
  (mn : mn_state) (pg : list N) : Prop :=
  pg ++ pend mn = map size_of (seq 0 nm) /\ ch3 = map out_chunk (seq nm (nd - nm)) /\
  match mn with
  | MInit _ | MWait | MSend _ _ | MProgress _ => True
  | MJoin => (exists t, wr = WDone t) /\ nm = nd
  | MRet r => nm = nd /\ exists a b c, rd = RDone a /\ cd = CDone b /\ wr = WDone c /\ r = join_result a b c
  end.

Definition fresh (c : chunk) : Prop := length (ck_buf c) = n /\ ck_cap c = CAP.

Definition rd_held (rd : rd_state) : nat := match rd with RFill _ _ | RSend _ _ => 1 | _ => 0 end.
Definition cd_held (cd : cd_state) : nat := match cd with CConv _ | CSend _ => 1 | _ => 0 end.
Definition wr_held (wr : wr_state) : nat := match wr with WWrite _ _ | WFlush _ | WSend _ => 1 | _ => 0 end.
Definition mn_held (mn : mn_state) : nat := match mn with MInit k => k | MSend _ _ => 1 | _ => 0 end.
Definition mn_pending (mn : mn_state) : nat := match mn with MSend _ _ => 1 | _ => 0 end.
Definition rd_alive (rd : rd_state) : bool := match rd with RClose _ | RDone _ => false | _ => true end.
Definition cd_alive (cd : cd_state) : bool := match cd with CClose _ | CDone _ => false | _ => true end.
Definition wr_alive (wr : wr_state) : bool := match wr with WClose _ | WDone _ => false | _ => true end.

Definition idx_of (i : nat) : N := wrap64 (N.of_nat i).

Definition ch0_inv (nr : nat) (rd : rd_state) (ch0 : list chunk) (mn : mn_state) (idx : N) : Prop :=
  Forall fresh ch0 /\
  match mn with MSend c _ => fresh c | _ => True end /\
  (rd_alive rd = true ->
   let k := nr + rd_held rd in
   map ck_idx ch0 = map idx_of (seq k (length ch0)) /\
   idx = idx_of (k + length ch0 + mn_pending mn) /\
   match mn with MSend c _ => ck_idx c = idx_of (k + length ch0) | _ => True end).

Record Inv (nr nc ns nw nd nm : nat) (out : bytes) (s : pstate) : Prop := {
  i_order : nr <= length E /\ nc <= nr /\ ns <= nc /\ nw <= ns /\ nd <= nw /\ nm <= nd /\ ns <= length D;
  i_rd : rd_inv nr (s_rd s) (s_src s) (s_cd s) (s_wr s);
  i_cd : cd_inv nr nc ns (s_rd s) (s_cd s) (s_wr s);
  i_wr : wr_inv ns nw nd (s_cd s) (s_wr s) (s_sink s) out;
  i_sk : sink_inv (s_sink s) out;
  i_mn : mn_inv nm nd (s_rd s) (s_cd s) (s_wr s) (s_ch3 s) (s_mn s) (s_progress s);
  i_ch0 : ch0_inv nr (s_rd s) (s_ch0 s) (s_mn s) (s_idx s);
  i_ch1 : length (s_ch1 s) <= 1 /\ (cd_alive (s_cd s) = true -> s_ch1 s = map in_chunk (seq nc (nr - nc)));
  i_ch2 : length (s_ch2 s) <= 1 /\ (wr_alive (s_wr s) = true -> s_ch2 s = map out_chunk (seq nw (ns - nw)));
  i_count :
    let k := mn_held (s_mn s) + length (s_ch0 s) + rd_held (s_rd s) + length (s_ch1 s) + cd_held (s_cd s)
             + length (s_ch2 s) + wr_held (s_wr s) + length (s_ch3 s) in
    k <= NUM_CHUNKS_IN_PIPELINE /\
    (rd_alive (s_rd s) = true -> cd_alive (s_cd s) = true -> wr_alive (s_wr s) = true ->
     k = NUM_CHUNKS_IN_PIPELINE)
}.

(** Converters whose output size differs from the input size by the announced amounts. *)
Definition regular : Prop := forall b l i b',
  length b <= n -> p_conv p b l i = Ok b' -> length b' + p_in_asize p = length b + p_out_asize p.

Hypothesis (Hn : 1 <= n) (Hreg : regular).

Lemma D_E : length D <= length E.
Proof. apply convert_seq_le. Qed.

Lemma conv_in i : conv_at (p_conv p) 0 E i = p_conv p (ck_buf (in_chunk i)) (ck_last (in_chunk i)) (ck_idx (in_chunk i)).
Proof. reflexivity. Qed.

Lemma D_length i : i < length D -> length (nth i D []) + p_in_asize p = length (fst (Ei i)) + p_out_asize p.
Proof.
  intros Hi. pose proof (convert_seq_nth (p_conv p) 0 E i Hi) as H. unfold conv_at in H.
  eapply Hreg; [|exact H]. apply input_le; [assumption|]. pose proof D_E. fold E. lia.
Qed.

Lemma cap_enough_n : n < CAP.
Proof. unfold n, CAP, input_buffer_size, buffer_capacity. lia. Qed.

Lemma cap_enough i : i < length D -> length (nth i D []) <= CAP.
Proof.
  intros Hi. pose proof (D_length i Hi). assert (length (fst (Ei i)) <= n).
  { apply input_le; [assumption|]. pose proof D_E. fold E. lia. }
  unfold n, CAP, input_buffer_size, buffer_capacity in *. lia.
Qed.

Lemma Inv_start : Inv 0 0 0 0 0 0 [] (start src0 sk0).
Proof.
  constructor; cbn.
  - lia.
  - split; [|split; reflexivity]. pose proof (chunks_length_pos n data Hn). unfold cs. lia.
  - reflexivity.
  - split; [reflexivity|]. split; [reflexivity|]. intros H Her.
    exfalso. unfold E, er in *. rewrite input_length, Her in H by exact Hn.
    pose proof (chunks_length_pos n (flat src0) Hn). lia.
  - split; [rewrite app_nil_r; reflexivity|]. split; [reflexivity|].
    destruct (w_room sk0); [split; [f_equal; cbn; lia|cbn; lia]|reflexivity].
  - repeat split; reflexivity.
  - split; [constructor|]. split; [exact I|]. intros _. repeat split; reflexivity.
  - split; [lia|reflexivity].
  - split; [lia|reflexivity].
  - split; [unfold NUM_CHUNKS_IN_PIPELINE; lia|reflexivity].
Qed.

(** *** Reader *)

Lemma in_more nr rest : skipn (nr * n) data = rest -> n < length rest ->
  nr < length E /\ S nr < length cs /\ Ei nr = (firstn n rest, false) /\
  skipn (S nr * n) data = skipn n rest.
Proof.
  intros <- H. rewrite skipn_length in H.
  destruct (input_more n Hn src0 nr) as [H1 H2]; [fold data; lia|].
  repeat split.
  - exact H1.
  - apply chunks_lt; [exact Hn|]. right. fold data. lia.
  - apply H2.
  - rewrite skipn_plus. f_equal. lia.
Qed.

Lemma in_last nr rest : nr < length cs -> skipn (nr * n) data = rest -> length rest <= n -> er = false ->
  length E = S nr /\ Ei nr = (rest, true).
Proof.
  intros Hlt <- H Her. rewrite skipn_length in H.
  destruct (input_last n Hn src0 nr Hlt) as [H1 H2]; [fold data; lia|assumption|].
  split; [exact H1|apply H2].
Qed.

Lemma in_broken nr rest : nr < length cs -> skipn (nr * n) data = rest -> length rest <= n -> er = true ->
  length E = nr.
Proof.
  intros Hlt <- H Her. rewrite skipn_length in H.
  apply (input_broken n Hn src0 nr Hlt); [fold data; lia|assumption].
Qed.

Lemma reader_inv nr nc ns nw nd nm out s s' : Inv nr nc ns nw nd nm out s -> step_reader s = Some s' ->
  exists nr', Inv nr' nc ns nw nd nm out s'.
Proof.
  intros I H. destruct s as [src rd ch0 ch1 cd ch2 wr sk ch3 mn idx pg].
  destruct I as [Iord Ird Icd Iwr Isk Imn Ich0 Ich1 Ich2 Icnt]. cbn in *.
  unfold step_reader, set_reader, initial_sender_alive, codec_receiver_alive in H. cbn [s_src s_rd s_ch0 s_ch1 s_cd s_ch2 s_wr s_sink s_ch3 s_mn s_idx s_progress] in H.
  destruct rd as [lb|c ptr|c next|t|t].
  - (* RWait *)
    destruct ch0 as [|c ch0].
    + (* closed *)
      assert (Hm : mn = MJoin \/ exists r, mn = MRet r) by (destruct mn; try discriminate; eauto).
      assert (H' : Some (mkPstate src (RClose TOk) [] ch1 cd ch2 wr sk ch3 mn idx pg) = Some s')
        by (destruct mn; try discriminate; exact H). clear H. injection H' as <-.
      exists nr. constructor; cbn; try assumption.
      * destruct Imn as (_ & _ & Imn).
        destruct Hm as [->|[r ->]].
        -- destruct Imn as [[t Ht] _]. subst wr. cbn in Iwr.
           destruct t; try tauto.
           ++ destruct Iwr as (_ & _ & _ & _ & r & ->). cbn in Icd.
              destruct r; cbn; try (right; left; discriminate).
              destruct Icd as (_ & _ & r' & Hr). discriminate.
           ++ right; right. discriminate.
        -- destruct Imn as (_ & a & b & c & Hr & _). discriminate.
      * destruct cd as [| | |t|t]; try assumption; destruct t; try assumption;
          destruct Icd as (_ & _ & r & Hr); discriminate.
      * destruct Imn as (? & ? & Imn). split; [assumption|]. split; [assumption|].
        destruct Hm as [->|[r ->]]; [assumption|].
        destruct Imn as (_ & a & b & c & Hr & _). discriminate.
      * split; [constructor|]. split; [apply Ich0|]. discriminate.
      * split; [lia|discriminate].
    + (* receive *)
      destruct Ird as (Hlt & Hd & Her). destruct Ich0 as (Hf & Hm & Hidx).
      destruct (Hidx eq_refl) as (Hi1 & Hi2 & Hi3). clear Hidx. cbn in Hi1, Hi2, Hi3.
      destruct (Forall_inv Hf) as [Hf1 Hf2]. pose proof (Forall_inv_tail Hf) as Hf'.
      injection Hi1 as Hc Hi1.
      assert (Hcap : grow (ck_cap c) (S (length (ck_buf c))) = CAP).
      { rewrite Hf1, Hf2. apply grow_le. pose proof cap_enough_n. lia. }
      assert (Hgoal : exists c' ptr,
        start_chunk lb c = (c', ptr) /\ length (ck_buf c') = S n /\ ptr <= S n /\ ck_cap c' = CAP /\
        ck_idx c' = wrap64 (N.of_nat nr) /\ firstn ptr (ck_buf c') = opt_bytes lb).
      { unfold start_chunk, buf_push. cbn. rewrite Hcap.
        assert (Hl : length (ck_buf c ++ [x00]) = S n) by (rewrite app_length; cbn; lia).
        rewrite Nat.add_0_r in Hc.
        destruct lb as [b|]; do 2 eexists; (split; [reflexivity|]); cbn.
        - repeat split; try assumption; try lia.
          destruct (ck_buf c ++ [x00]) eqn:Eb; [discriminate|]. cbn. cbn in Hl. lia.
        - repeat split; try assumption; lia. }
      destruct Hgoal as (c' & ptr & Hs & Hl & Hp & Hcap' & Hidx' & Hfst).
      rewrite Hs in H. injection H as <-.
      exists nr. constructor; cbn; try assumption.
      * rewrite Hfst. repeat split; assumption.
      * destruct cd as [| | |t|t]; try assumption; destruct t; try assumption;
          destruct Icd as (_ & _ & r & Hr); discriminate.
      * destruct Imn as (? & ? & Imn). split; [assumption|]. split; [assumption|].
        destruct mn; try assumption.
        destruct Imn as (_ & a & b & d & Hr & _). discriminate.
      * split; [assumption|]. split; [assumption|]. intros _. cbn.
        replace (nr + 1) with (S (nr + 0)) by lia. repeat split.
        -- exact Hi1.
        -- rewrite Hi2. f_equal. lia.
        -- destruct mn; try exact I. rewrite Hi3. f_equal. lia.
      * replace (mn_held mn + length ch0 + 1) with (mn_held mn + S (length ch0) + 0) by lia. exact Icnt.
  - (* RFill *)
    destruct Ird as (Hlt & Hl & Hp & Hcap & Hidx & Hd & Her).
    assert (Icd' : forall rd', cd_inv nr nc ns (RFill c ptr) cd wr -> cd_inv nr nc ns rd' cd wr).
    { intros rd' Hc. destruct cd as [| | |t|t]; try assumption; destruct t; try assumption;
          destruct Hc as (_ & _ & r & Hr); discriminate. }
    assert (Imn' : forall rd', mn_inv nm nd (RFill c ptr) cd wr ch3 mn pg -> mn_inv nm nd rd' cd wr ch3 mn pg).
    { intros rd' (? & ? & Hm). split; [assumption|]. split; [assumption|]. destruct mn; try assumption.
      destruct Hm as (_ & a & b & d & Hr & _). discriminate. }
    destruct (Nat.leb_spec (length (ck_buf c)) ptr) as [Hfull|Hroom].
    + (* full *)
      assert (ptr = S n) by lia. subst ptr.
      unfold full_chunk in H. rewrite Hl in H. replace (S n - 1) with n in H by lia.
      destruct (snoc_nth_error (ck_buf c) n Hl) as (b & Hb & Hsnoc). rewrite Hb in H.
      rewrite firstn_all2 in Hd by lia.
      destruct (in_more nr _ Hd) as (Hn1 & Hn2 & Hn3 & Hn4); [rewrite app_length; lia|].
      injection H as <-. exists nr. constructor; cbn; try assumption.
      * repeat split; try assumption.
        -- unfold in_chunk. rewrite Hn3. cbn. unfold set_last, buf_truncate. cbn.
           rewrite Hcap, Hidx. f_equal. rewrite firstn_app. replace (n - length (ck_buf c)) with 0 by lia.
           cbn. rewrite app_nil_r. reflexivity.
        -- cbn in Hn4. rewrite Hn4. rewrite Hsnoc. rewrite <- app_assoc.
           assert (Hfl : length (firstn n (ck_buf c)) = n) by (rewrite firstn_length; lia).
           rewrite <- Hfl at 1. rewrite skipn_app_exact. reflexivity.
      * apply Icd'. assumption.
      * apply Imn'. assumption.
    + destruct src as [|[[|x d]| |] src].
      * (* EOF *)
        injection H as <-. cbn in Hd. rewrite app_nil_r in Hd. cbn in Her.
        destruct (in_last nr _ Hlt Hd) as [Hn1 Hn2]; [rewrite firstn_length; lia|congruence|].
        exists nr. constructor; cbn; try assumption.
        -- repeat split; try lia; try congruence.
           unfold in_chunk. rewrite Hn2. unfold finish_chunk, set_last, buf_truncate. cbn. congruence.
        -- apply Icd'. assumption.
        -- apply Imn'. assumption.
      * (* Ok(0) *)
        injection H as <-. cbn in Hd. rewrite app_nil_r in Hd. cbn in Her.
        destruct (in_last nr _ Hlt Hd) as [Hn1 Hn2]; [rewrite firstn_length; lia|congruence|].
        exists nr. constructor; cbn; try assumption.
        -- repeat split; try lia; try congruence.
           unfold in_chunk. rewrite Hn2. unfold finish_chunk, set_last, buf_truncate. cbn. congruence.
        -- apply Icd'. assumption.
        -- apply Imn'. assumption.
      * (* data *)
        remember (x :: d) as e eqn:Ee.
        remember (Nat.min (length e) (length (ck_buf c) - ptr)) as k eqn:Ek.
        assert (Hk : length (firstn k e) = k) by (apply firstn_length_le; lia).
        injection H as <-.
        exists nr. constructor; cbn [s_src s_rd s_ch0 s_ch1 s_cd s_ch2 s_wr s_sink s_ch3 s_mn s_idx s_progress];
          try assumption.
        -- cbn. rewrite overwrite_length by lia. repeat split; try assumption; try lia.
           ++ rewrite Hd, flat_push_back. rewrite <- Hk at 1. rewrite overwrite_firstn by lia.
              rewrite <- app_assoc. f_equal. rewrite app_assoc, firstn_skipn. subst e. reflexivity.
           ++ rewrite ends_push_back. rewrite <- Her. subst e. reflexivity.
        -- apply Icd'. assumption.
        -- apply Imn'. assumption.
      * (* interrupted *)
        injection H as <-. exists nr. constructor; cbn; try assumption.
        repeat split; assumption.
      * (* error *)
        injection H as <-. cbn in Hd. rewrite app_nil_r in Hd. cbn in Her.
        exists nr. constructor; cbn; try assumption.
        -- split; [|congruence]. symmetry. eapply in_broken; eauto. rewrite firstn_length. lia.
        -- apply Icd'. assumption.
        -- apply Imn'. assumption.
        -- split; [apply Ich0|]. split; [apply Ich0|]. discriminate.
        -- split; [lia|discriminate].
  - (* RSend *)
    destruct Ird as (Hlt & -> & Hnext).
    assert (Icd' : forall nr' rd', cd_inv nr nc ns (RSend (in_chunk nr) next) cd wr -> cd_inv nr' nc ns rd' cd wr).
    { intros nr' rd' Hc. destruct cd as [| | |t|t]; try assumption; destruct t; try assumption;
          destruct Hc as (_ & _ & r & Hr); discriminate. }
    assert (Imn' : forall rd', mn_inv nm nd (RSend (in_chunk nr) next) cd wr ch3 mn pg -> mn_inv nm nd rd' cd wr ch3 mn pg).
    { intros rd' (? & ? & Hm). split; [assumption|]. split; [assumption|]. destruct mn; try assumption.
      destruct Hm as (_ & a & b & d & Hr & _). discriminate. }
    destruct (cd_alive cd) eqn:Ea.
    + assert (H' : match ch1 with
          | [] => Some (mkPstate src (match next with Some lb => RWait lb | None => RClose TOk end) ch0 [in_chunk nr] cd ch2 wr sk ch3 mn idx pg)
          | _ => None end = Some s') by (destruct cd; try discriminate; exact H).
      clear H. destruct ch1 as [|c1 ch1]; [|discriminate]. injection H' as <-.
      destruct Ich1 as [_ Ich1]. specialize (Ich1 eq_refl).
      assert (nr = nc). { destruct (nr - nc) eqn:Ed; [lia|]. discriminate. }
      exists (S nr).
      assert (Hb1 : S nr <= length E) by lia.
      assert (Hr : rd_inv (S nr) (match next with Some lb => RWait lb | None => RClose TOk end) src cd wr).
      { destruct next as [[b|]|]; [|contradiction|]; cbn.
        - cbn in Hnext. destruct Hnext as (? & ? & ?). repeat split; assumption.
        - left. assumption. }
      constructor; cbn [s_src s_rd s_ch0 s_ch1 s_cd s_ch2 s_wr s_sink s_ch3 s_mn s_idx s_progress]; try assumption.
      * lia.
      * eapply Icd'. eassumption.
      * apply Imn'. assumption.
      * destruct Ich0 as (H0a & H0b & H0c). split; [assumption|]. split; [assumption|].
        destruct next as [lb|]; [|discriminate]. intros _. cbn. cbn in H0c.
        destruct (H0c eq_refl) as (H1 & H2 & H3). rewrite Nat.add_1_r in H1, H2, H3. rewrite Nat.add_0_r.
        repeat split; assumption.
      * split; [cbn; lia|]. intros _. replace (S nr - nc) with 1 by lia. cbn. subst. reflexivity.
      * cbn in Icnt |- *. destruct next as [lb|]; cbn; [|split; [lia|discriminate]].
        split; [lia|]. intros _ Hc Hw. destruct Icnt as [_ Icnt]. specialize (Icnt eq_refl eq_refl Hw). lia.
    + assert (H' : Some (mkPstate src (RClose TSend) ch0 ch1 cd ch2 wr sk ch3 mn idx pg) = Some s')
        by (destruct cd; try discriminate; exact H).
      clear H. injection H' as <-. exists nr. constructor; cbn; try assumption.
      * destruct cd as [| | |t|t]; try discriminate; cbn; intros ->;
          destruct Icd as (_ & _ & r & Hr); discriminate.
      * eapply Icd'. eassumption.
      * apply Imn'. assumption.
      * split; [apply Ich0|]. split; [apply Ich0|]. discriminate.
      * rewrite Ea. assumption.
      * split; [lia|discriminate].
  - (* RClose *)
    injection H as <-. exists nr. constructor; cbn; try assumption.
    + destruct cd as [| | |t'|t']; try assumption; destruct t'; try assumption;
          destruct Icd as (_ & _ & r & Hr); discriminate.
    + destruct Imn as (? & ? & Imn). split; [assumption|]. split; [assumption|].
      destruct mn; try assumption. destruct Imn as (_ & a & b & c & Hr & _). discriminate.
  - discriminate.
Qed.

(** *** Converter *)

Lemma rd_inv_mono nr rd src cd wr cd' wr' :
  (cd_failed cd -> cd_failed cd') -> (wr_failed wr -> wr_failed wr') ->
  rd_inv nr rd src cd wr -> rd_inv nr rd src cd' wr'.
Proof. intros H1 H2. destruct rd as [| | |t|t]; auto; destruct t; cbn; tauto. Qed.

Lemma cd_alive_iff cd : cd_alive cd = true -> forall r, cd <> CDone r.
Proof. destruct cd; cbn; congruence. Qed.

Lemma wr_inv_cd ns nw nd cd cd' wr sk out : (forall r, cd <> CDone r) ->
  wr_inv ns nw nd cd wr sk out -> wr_inv ns nw nd cd' wr sk out.
Proof.
  intros Hc. destruct wr as [| | | |t|t]; auto; destruct t; auto; cbn;
    intros (_ & _ & _ & _ & r & Hr); elim (Hc _ Hr).
Qed.

Lemma wr_inv_ns ns ns' nw nd cd wr sk out : (forall r, cd <> CDone r) ->
  wr_inv ns nw nd cd wr sk out -> wr_inv ns' nw nd cd wr sk out.
Proof.
  intros Hc. destruct wr as [| | | |t|t]; auto; destruct t; auto; cbn;
    intros (_ & _ & _ & _ & r & Hr); elim (Hc _ Hr).
Qed.

Lemma mn_inv_cd nm nd rd cd cd' wr ch3 mn pg : (forall r, cd <> CDone r) ->
  mn_inv nm nd rd cd wr ch3 mn pg -> mn_inv nm nd rd cd' wr ch3 mn pg.
Proof.
  intros Hc (? & ? & H). split; [assumption|]. split; [assumption|]. destruct mn; auto.
  destruct H as (_ & a & b & c & _ & Hr & _). elim (Hc _ Hr).
Qed.

Lemma mn_inv_wr nm nd rd cd wr wr' ch3 mn pg : (forall r, wr <> WDone r) ->
  mn_inv nm nd rd cd wr ch3 mn pg -> mn_inv nm nd rd cd wr' ch3 mn pg.
Proof.
  intros Hc (? & ? & H). split; [assumption|]. split; [assumption|]. destruct mn; auto.
  - destruct H as ((t & Ht) & _). elim (Hc _ Ht).
  - destruct H as (_ & a & b & c & _ & _ & Hr & _). elim (Hc _ Hr).
Qed.

Lemma cd_inv_wr nr nc ns rd cd wr wr' : (wr_failed wr -> wr_failed wr') ->
  cd_inv nr nc ns rd cd wr -> cd_inv nr nc ns rd cd wr'.
Proof. intros H. destruct cd as [| | |t|t]; auto; destruct t; cbn; auto. Qed.

Ltac std :=
  try assumption;
  try (eapply rd_inv_mono; [| |eassumption]; solve [auto|intros []]);
  try (eapply cd_inv_wr; [|eassumption]; solve [auto|intros []]);
  try (eapply wr_inv_cd; [|eassumption]; solve [assumption|discriminate]);
  try (eapply mn_inv_cd; [|eassumption]; solve [assumption|discriminate]);
  try (eapply mn_inv_wr; [|eassumption]; discriminate).

Lemma codec_inv nr nc ns nw nd nm out s s' : Inv nr nc ns nw nd nm out s -> step_codec p s = Some s' ->
  exists nc' ns', Inv nr nc' ns' nw nd nm out s'.
Proof.
  intros I H. destruct s as [src rd ch0 ch1 cd ch2 wr sk ch3 mn idx pg].
  destruct I as [Iord Ird Icd Iwr Isk Imn Ich0 Ich1 Ich2 Icnt]. cbn in *.
  unfold step_codec, set_codec, read_sender_alive, write_receiver_alive in H.
  cbn [s_src s_rd s_ch0 s_ch1 s_cd s_ch2 s_wr s_sink s_ch3 s_mn s_idx s_progress] in H.
  destruct cd as [|c|c|t|t].
  - (* CWait *)
    assert (Hnd : forall r, CWait <> CDone r) by discriminate.
    destruct ch1 as [|c ch1].
    + assert (Hr : exists r, rd = RDone r) by (destruct rd; try discriminate; eauto).
      assert (H' : Some (mkPstate src rd ch0 [] (CClose TOk) ch2 wr sk ch3 mn idx pg) = Some s')
        by (destruct rd; try discriminate; exact H). clear H. injection H' as <-.
      destruct Ich1 as [_ Ich1]. specialize (Ich1 eq_refl).
      assert (Hnr : nr = nc). { destruct (nr - nc) eqn:Ed; [lia|]. discriminate. }
      exists nc, ns. constructor; cbn; std.
      * repeat split; auto.
      * split; [lia|discriminate].
      * split; [lia|discriminate].
    + injection H as <-. destruct Ich1 as [Hl Ich1]. specialize (Ich1 eq_refl).
      destruct (nr - nc) as [|k] eqn:Ed; [discriminate|]. cbn in Ich1. injection Ich1 as -> Ich1.
      exists (S nc), ns. constructor; cbn; std.
      * lia.
      * cbn in Icd. rewrite Icd. split; reflexivity.
      * cbn in Hl. split; [lia|]. intros _. replace (nr - S nc) with k by lia. assumption.
      * cbn in Icnt. split; [lia|]. intros Ha _ Hw. destruct Icnt as [_ Icnt]. specialize (Icnt Ha eq_refl Hw). lia.
  - (* CConv *)
    destruct Icd as [-> ->].
    assert (Hnd : forall r, CConv (in_chunk ns) <> CDone r) by discriminate.
    assert (Hns : ns < length E) by lia.
    change (p_conv p (ck_buf (in_chunk ns)) (ck_last (in_chunk ns)) (ck_idx (in_chunk ns))) with (conv_at (p_conv p) 0 E ns) in H.
    assert (Hfail : (forall b, conv_at (p_conv p) 0 E ns <> Ok b) -> ns = length D).
    { intros Hb. apply (convert_seq_fail (p_conv p) 0 E ns); [unfold D, seq_converted in Iord; fold E in Iord; lia|assumption]. }
    destruct (conv_at (p_conv p) 0 E ns) as [b|e|] eqn:Ec.
    + destruct (convert_seq_reach (p_conv p) 0 E ns b) as [Hlt Hnth]; [unfold D, seq_converted in Iord; fold E in Iord; lia|assumption|assumption|].
      injection H as <-. exists (S ns), ns. constructor; cbn; std.
      * split; [reflexivity|]. split; [|exact Hlt]. unfold out_chunk. cbn.
        assert (Hb : nth ns D [] = b) by exact Hnth. rewrite Hb. f_equal. apply grow_le.
        rewrite <- Hb. apply cap_enough. exact Hlt.
    + injection H as <-. exists (S ns), ns. constructor; cbn; std.
      * split; [apply Hfail; discriminate|assumption].
      * split; [apply Ich1|discriminate].
      * split; [lia|discriminate].
    + injection H as <-. exists (S ns), ns. constructor; cbn; std.
      * split; [apply Hfail; discriminate|assumption].
      * split; [apply Ich1|discriminate].
      * split; [lia|discriminate].
  - (* CSend *)
    destruct Icd as (-> & -> & Hlt).
    assert (Hnd : forall r, CSend (out_chunk ns) <> CDone r) by discriminate.
    destruct (wr_alive wr) eqn:Ea.
    + assert (H' : match ch2 with
          | [] => Some (mkPstate src rd ch0 ch1 CWait [out_chunk ns] wr sk ch3 mn idx pg)
          | _ => None end = Some s') by (destruct wr; try discriminate; exact H).
      clear H. destruct ch2 as [|c2 ch2]; [|discriminate]. injection H' as <-.
      destruct Ich2 as [_ Ich2]. specialize (Ich2 eq_refl).
      assert (Hsw : ns = nw). { destruct (ns - nw) eqn:Ed; [lia|]. discriminate. }
      exists (S ns), (S ns). constructor; cbn; std.
      * lia.
      * reflexivity.
      * eapply wr_inv_ns; [discriminate|]. eapply wr_inv_cd; eassumption.
      * split; [lia|]. intros _. rewrite Hsw. change (match nw with 0 => S nw | S l => nw - l end) with (S nw - nw).
        replace (S nw - nw) with 1 by lia. reflexivity.
      * cbn in Icnt. split; [lia|]. intros Ha _ Hw. destruct Icnt as [_ Icnt]. specialize (Icnt Ha eq_refl eq_refl). lia.
    + assert (H' : Some (mkPstate src rd ch0 ch1 (CClose TSend) ch2 wr sk ch3 mn idx pg) = Some s')
        by (destruct wr; try discriminate; exact H).
      clear H. injection H' as <-. exists (S ns), ns. constructor; cbn; std.
      * destruct wr as [| | | |t|t]; try discriminate; cbn; intros ->;
          destruct Iwr as (_ & _ & _ & _ & r & Hr); discriminate.
      * split; [apply Ich1|discriminate].
      * rewrite Ea. assumption.
      * split; [lia|discriminate].
  - (* CClose *)
    injection H as <-. exists nc, ns. constructor; cbn; std.
  - discriminate.
Qed.

(** *** Writer *)

Lemma concat_firstn_S i : i < length D -> concat (firstn (S i) D) = concat (firstn i D) ++ nth i D [].
Proof.
  intros Hi. rewrite firstn_S_snoc with (d := []) by assumption.
  rewrite concat_app. cbn. rewrite app_nil_r. reflexivity.
Qed.

Lemma last_flag i : i < length E -> snd (Ei i) = true <-> S i = length E /\ er = false.
Proof.
  intros Hi. unfold Ei, E in *. rewrite input_nth by assumption. cbn [snd].
  rewrite input_length by exact Hn. unfold er. destruct (ends_in_error src0); cbn [negb andb].
  - split; [discriminate|]. intros []; discriminate.
  - rewrite Nat.eqb_eq. tauto.
Qed.

Lemma writer_inv k nr nc ns nw nd nm out s s' : Inv nr nc ns nw nd nm out s -> step_writer k s = Some s' ->
  exists nw' nd' out', Inv nr nc ns nw' nd' nm out' s'.
Proof.
  intros I H. destruct s as [src rd ch0 ch1 cd ch2 wr sk ch3 mn idx pg].
  destruct I as [Iord Ird Icd Iwr Isk Imn Ich0 Ich1 Ich2 Icnt]. cbn in *.
  unfold step_writer, set_writer, codec_sender_alive, final_receiver_alive in H.
  cbn [s_src s_rd s_ch0 s_ch1 s_cd s_ch2 s_wr s_sink s_ch3 s_mn s_idx s_progress] in H.
  destruct wr as [|c rest|c|c|t|t].
  - (* WWait *)
    destruct Iwr as (-> & Hout & Hfl).
    destruct ch2 as [|c ch2].
    + assert (Hr : exists r, cd = CDone r) by (destruct cd; try discriminate; eauto).
      assert (H' : Some (mkPstate src rd ch0 ch1 cd [] (WClose TOk) sk ch3 mn idx pg) = Some s')
        by (destruct cd; try discriminate; exact H). clear H. injection H' as <-.
      destruct Ich2 as [_ Ich2]. specialize (Ich2 eq_refl).
      assert (Hnr : nw = ns). { destruct (ns - nw) eqn:Ed; [lia|]. discriminate. }
      exists nw, nw, out. constructor; cbn; std.
      * repeat split; try assumption; apply Hfl; assumption.
      * split; [lia|discriminate].
      * split; [lia|discriminate].
    + injection H as <-. destruct Ich2 as [Hl Ich2]. specialize (Ich2 eq_refl).
      destruct (ns - nw) as [|j] eqn:Ed; [discriminate|]. cbn in Ich2. injection Ich2 as -> Ich2.
      exists (S nw), nw, out. constructor; cbn; std.
      * lia.
      * split; [reflexivity|]. split; [reflexivity|]. rewrite Hout. symmetry.
        change (match D with [] => [] | a :: l => a :: firstn nw l end) with (firstn (S nw) D).
        apply concat_firstn_S. lia.
      * cbn in Hl. split; [lia|]. intros _. replace (ns - S nw) with j by lia. assumption.
      * cbn in Icnt. split; [lia|]. intros Ha Hc _. destruct Icnt as [_ Icnt]. specialize (Icnt Ha Hc eq_refl). lia.
  - (* WWrite *)
    destruct Iwr as (-> & -> & Hout).
    assert (Hnd : nd < length E) by lia.
    destruct rest as [|x rest].
    + injection H as <-. rewrite app_nil_r in Hout.
      exists (S nd), nd, out. cbn [ck_last out_chunk].
      pose proof (last_flag nd Hnd) as Hlf.
      destruct (snd (Ei nd)) eqn:El; constructor; cbn; std.
      * repeat split; try assumption; apply Hlf; reflexivity.
      * split; [reflexivity|]. split; [reflexivity|]. split; [assumption|].
        intros Hx Hy. destruct Hlf as [_ Hlf]. discriminate (Hlf (conj Hx Hy)).
    + remember (x :: rest) as r eqn:Er. destruct Isk as (Hs1 & Hs2 & Hs3).
      assert (Hwr : w_room sk <> Some 0 /\
        (1 <= k /\ k <= length r /\ match w_room sk with Some q => k <= q | None => True end) /\
        s' = mkPstate src rd ch0 ch1 cd ch2 (WWrite (out_chunk nd) (skipn k r))
               (mkSink (w_out sk ++ firstn k r) (match w_room sk with Some q => Some (q - k) | None => None end) (w_flush_ok sk) false)
               ch3 mn idx pg
        \/ w_room sk = Some 0 /\ s' = mkPstate src rd ch0 ch1 cd ch2 (WClose (TErr EIo)) sk ch3 mn idx pg).
      { rewrite Er in H. rewrite <- Er in H. destruct (w_room sk) as [[|q]|].
        - right. split; [reflexivity|]. congruence.
        - left. split; [discriminate|].
          destruct (Nat.leb 1 k && Nat.leb k (length r) && Nat.leb k (S q)) eqn:Eb; [|discriminate].
          apply andb_prop in Eb. destruct Eb as [Eb Eb3]. apply andb_prop in Eb. destruct Eb as [Eb1 Eb2].
          apply Nat.leb_le in Eb1, Eb2, Eb3. split; [auto|]. congruence.
        - left. split; [discriminate|].
          destruct (Nat.leb 1 k && Nat.leb k (length r) && true) eqn:Eb; [|discriminate].
          apply andb_prop in Eb. destruct Eb as [Eb Eb3]. apply andb_prop in Eb. destruct Eb as [Eb1 Eb2].
          apply Nat.leb_le in Eb1, Eb2. split; [auto|]. congruence. }
      clear H. destruct Hwr as [(Hroom & (Hk1 & Hk2 & Hk3) & ->)|[Hroom ->]].
      * exists (S nd), nd, (out ++ firstn k r).
        constructor; cbn [s_src s_rd s_ch0 s_ch1 s_cd s_ch2 s_wr s_sink s_ch3 s_mn s_idx s_progress]; std.
        -- cbn -[firstn]. split; [reflexivity|]. split; [reflexivity|].
           rewrite <- app_assoc, firstn_skipn. assumption.
        -- split; [cbn; rewrite Hs1, app_assoc; reflexivity|]. split; [assumption|]. cbn.
           assert (Hfk : length (firstn k r) = k) by (apply firstn_length_le; assumption).
           destruct (w_room sk0) as [q0|].
           ++ destruct Hs3 as [Hs3 Hs4]. rewrite Hs3 in *. rewrite app_length, Hfk.
              split; [f_equal; lia|lia].
           ++ rewrite Hs3. reflexivity.
      * exists (S nd), nd, out. constructor; cbn; std.
        -- left. exists r. split; [subst; discriminate|]. split; [assumption|].
           destruct (w_room sk0) as [q0|]; [|congruence]. f_equal. destruct Hs3. assert (q0 - length out = 0) by congruence. lia.
        -- repeat split; assumption.
        -- split; [apply Ich2|discriminate].
        -- split; [lia|discriminate].
  - (* WFlush *)
    destruct Iwr as (-> & -> & Hout & HnE & Her). destruct Isk as (Hs1 & Hs2 & Hs3).
    unfold flush in H. destruct (w_flush_ok sk) eqn:Ef.
    + injection H as <-. exists (S nd), nd, out. constructor; cbn; std.
      * repeat split; assumption.
      * repeat split; assumption.
    + injection H as <-. exists (S nd), nd, out. constructor; cbn; std.
      * right. repeat split; try assumption. congruence.
      * repeat split; try assumption. congruence.
      * split; [apply Ich2|discriminate].
      * split; [lia|discriminate].
  - (* WSend *)
    destruct Iwr as (-> & -> & Hout & Hfl).
    assert (Hm : match mn with MJoin | MRet _ => False | _ => True end).
    { destruct Imn as (_ & _ & Imn). destruct mn; auto.
      - destruct Imn as [[t Ht] _]. discriminate.
      - destruct Imn as (_ & a & b & c & _ & _ & Hr & _). discriminate. }
    assert (H' : Some (mkPstate src rd ch0 ch1 cd ch2 WWait sk (ch3 ++ [out_chunk nd]) mn idx pg) = Some s')
      by (destruct mn; try contradiction; exact H).
    clear H. injection H' as <-. exists (S nd), (S nd), out. constructor; cbn; std.
    + lia.
    + repeat split; try assumption; apply Hfl; assumption.
    + destruct Imn as (Hp & Hc3 & Imn). split; [assumption|]. split.
      * rewrite Hc3. replace (S nd - nm) with (S (nd - nm)) by lia. rewrite seq_snoc, map_app. cbn.
        do 3 f_equal. lia.
      * destruct mn; try exact I; contradiction.
    + rewrite app_length. cbn in Icnt |- *. split; [lia|]. intros Ha Hc _.
      destruct Icnt as [_ Icnt]. specialize (Icnt Ha Hc eq_refl). lia.
  - (* WClose *)
    injection H as <-. exists nw, nd, out. constructor; cbn; std.
  - discriminate.
Qed.

(** *** Main *)

Lemma supply_length s c : length (supply s c) = length (s_ch0 s) + if read_receiver_alive s then 1 else 0.
Proof. unfold supply. destruct (read_receiver_alive s); [rewrite app_length; reflexivity|lia]. Qed.

Lemma ch0_supply nr s c : Forall fresh (s_ch0 s) -> fresh c ->
  (rd_alive (s_rd s) = true ->
   let k := nr + rd_held (s_rd s) in
   map ck_idx (s_ch0 s) = map idx_of (seq k (length (s_ch0 s))) /\
   ck_idx c = idx_of (k + length (s_ch0 s))) ->
  Forall fresh (supply s c) /\
  (rd_alive (s_rd s) = true ->
   let k := nr + rd_held (s_rd s) in
   map ck_idx (supply s c) = map idx_of (seq k (length (supply s c))) /\
   length (supply s c) = S (length (s_ch0 s))).
Proof.
  intros Hf Hc Hi. unfold supply. change (read_receiver_alive s) with (rd_alive (s_rd s)).
  destruct (rd_alive (s_rd s)).
  - split; [apply Forall_app; auto|]. intros _. cbn zeta. destruct (Hi eq_refl) as [Hi1 Hi2].
    rewrite app_length. cbn [length]. rewrite Nat.add_1_r, seq_snoc, !map_app, Hi1. cbn [map].
    rewrite Hi2. auto.
  - split; [assumption|discriminate].
Qed.

Lemma written_of i : i < length D -> (N.of_nat CAP < two64)%N ->
  wrap64 (lenN (nth i D []) + two64 - N.of_nat (p_out_asize p) + N.of_nat (p_in_asize p)) = size_of i.
Proof.
  intros Hi Hcap. pose proof (D_length i Hi) as Hl. pose proof (cap_enough i Hi) as Hc.
  assert (Hle : length (fst (Ei i)) <= n). { apply input_le; [assumption|]. pose proof D_E. fold E. lia. }
  pose proof cap_enough_n as Hn'.
  assert (p_out_asize p <= CAP) by (unfold CAP, buffer_capacity; lia).
  unfold size_of, lenN, wrap64.
  replace (N.of_nat (length (nth i D [])) + two64 - N.of_nat (p_out_asize p) + N.of_nat (p_in_asize p))%N
    with (N.of_nat (length (fst (Ei i))) + 1 * two64)%N.
  - rewrite N.mod_add by discriminate. apply N.mod_small. lia.
  - lia.
Qed.

Lemma idx_succ i : wrap64 (idx_of i + 1) = idx_of (S i).
Proof.
  unfold idx_of, wrap64. rewrite N.add_mod_idemp_l by discriminate. f_equal. lia.
Qed.

Lemma main_inv nr nc ns nw nd nm out s s' : (N.of_nat CAP < two64)%N ->
  Inv nr nc ns nw nd nm out s -> step_main p s = Some s' ->
  exists nm', Inv nr nc ns nw nd nm' out s'.
Proof.
  intros Hcap64 I H. remember s as s0 eqn:Es0. destruct s0 as [src rd ch0 ch1 cd ch2 wr sk ch3 mn idx pg].
  destruct I as [Iord Ird Icd Iwr Isk Imn Ich0 Ich1 Ich2 Icnt].
  cbn [s_src s_rd s_ch0 s_ch1 s_cd s_ch2 s_wr s_sink s_ch3 s_mn s_idx s_progress] in *.
  unfold step_main, set_main, write_sender_alive in H.
  cbn [s_src s_rd s_ch0 s_ch1 s_cd s_ch2 s_wr s_sink s_ch3 s_mn s_idx s_progress] in H.
  destruct mn as [[|k]| |c w|w| |r].
  - (* MInit 0 *)
    injection H as <-. exists nm. constructor; cbn; assumption.
  - (* MInit S *)
    rewrite Es0 in H.
    remember {| ck_buf := firstn (input_buffer_size p) (repeat x00 (buffer_capacity p)); ck_cap := buffer_capacity p;
                ck_last := false; ck_idx := idx |} as c eqn:Ec.
    assert (Hc : fresh c).
    { subst c. split; [|reflexivity]. cbn. rewrite firstn_length, repeat_length. fold n CAP.
      pose proof cap_enough_n. lia. }
    destruct Ich0 as (H0a & H0b & H0c).
    pose proof (ch0_supply nr s c) as Hs. pose proof (supply_length s c) as Hsl.
    rewrite <- Es0 in H, Hs, Hsl. cbn [s_rd s_ch0 read_receiver_alive] in Hs, Hsl.
    destruct (Hs H0a Hc) as [Hs1 Hs2].
    { intros Ha. destruct (H0c Ha) as (Hi1 & Hi2 & _). split; [assumption|]. subst c. cbn.
      rewrite Hi2. f_equal. cbn. lia. }
    clear Hs. injection H as <-.
    exists nm. constructor; cbn -[supply]; try assumption.
    + split; [assumption|]. split; [exact Logic.I|]. intros Ha. destruct (Hs2 Ha) as [Hs3 Hs4].
      split; [exact Hs3|]. split; [|exact Logic.I].
      destruct (H0c Ha) as (_ & Hi2 & _). rewrite Hs4, Hi2. cbn in Hi2 |- *. rewrite idx_succ. f_equal. lia.
    + rewrite Hsl. cbn in Icnt. fold (rd_alive rd) in *. split.
      * change (read_receiver_alive _) with (rd_alive rd). destruct (rd_alive rd); lia.
      * intros Ha Hb Hd. destruct Icnt as [_ Icnt]. specialize (Icnt Ha Hb Hd).
        change (read_receiver_alive _) with (rd_alive rd). rewrite Ha. lia.
  - (* MWait *)
    destruct ch3 as [|c ch3].
    + assert (Hr : exists r, wr = WDone r) by (destruct wr; try discriminate; eauto).
      assert (H' : Some (mkPstate src rd ch0 ch1 cd ch2 wr sk [] MJoin idx pg) = Some s')
        by (destruct wr; try discriminate; exact H). clear H. injection H' as <-.
      destruct Imn as (Hp & Hc3 & _).
      assert (nm = nd). { destruct (nd - nm) eqn:Ed; [lia|]. discriminate. }
      exists nm. constructor; cbn; try assumption.
      split; [assumption|]. split; [assumption|]. split; assumption.
    + destruct Imn as (Hp & Hc3 & _). destruct (nd - nm) as [|j] eqn:Ed; [discriminate|].
      cbn in Hc3. injection Hc3 as -> Hc3.
      assert (Hnm : nm < length D) by lia.
      cbn [ck_buf out_chunk] in H.
      rewrite written_of in H by assumption.
      assert (Hrc : ck_cap (buf_resize (out_chunk nm) (input_buffer_size p)) = CAP).
      { cbn. apply grow_le. fold n. pose proof cap_enough_n. lia. }
      rewrite Hrc in H. fold CAP in H. rewrite Nat.eqb_refl in H.
      remember (mkChunk (ck_buf (buf_resize (out_chunk nm) (input_buffer_size p))) CAP
                 (ck_last (buf_resize (out_chunk nm) (input_buffer_size p))) idx) as c eqn:Ec.
      assert (Hfr : fresh c).
      { subst c. split; [|reflexivity]. cbn. rewrite app_length, firstn_length, repeat_length. fold n. lia. }
      injection H as <-. destruct Ich0 as (H0a & H0b & H0c).
      exists (S nm). constructor; cbn; try assumption.
      * lia.
      * split; [|split; [|exact Logic.I]].
        -- change (size_of 0 :: map size_of (seq 1 nm)) with (map size_of (seq 0 (S nm))).
           rewrite seq_snoc, map_app. cbn in Hp. rewrite app_nil_r in Hp. rewrite Hp. reflexivity.
        -- replace (nd - S nm) with j by lia. assumption.
      * split; [assumption|]. split; [assumption|]. intros Ha. cbn in H0c. destruct (H0c Ha) as (Hi1 & Hi2 & _).
        split; [assumption|]. split.
        -- rewrite Hi2, idx_succ. f_equal. cbn. lia.
        -- subst c. cbn. rewrite Hi2. f_equal. lia.
      * cbn in Icnt. split; [lia|]. intros Ha Hb Hd. destruct Icnt as [_ Icnt]. specialize (Icnt Ha Hb Hd). lia.
  - (* MSend *)
    destruct Ich0 as (H0a & H0b & H0c).
    pose proof (ch0_supply nr s c) as Hs. pose proof (supply_length s c) as Hsl.
    rewrite <- Es0 in Hs, Hsl. cbn [s_rd s_ch0 read_receiver_alive] in Hs, Hsl.
    destruct (Hs H0a H0b) as [Hs1 Hs2].
    { intros Ha. destruct (H0c Ha) as (Hi1 & Hi2 & Hi3). split; assumption. }
    clear Hs. injection H as <-.
    exists nm. constructor; cbn -[supply]; try assumption.
    + split; [assumption|]. split; [exact Logic.I|]. intros Ha. destruct (Hs2 Ha) as [Hs3 Hs4].
      split; [exact Hs3|]. split; [|exact Logic.I].
      destruct (H0c Ha) as (_ & Hi2 & _). rewrite Hs4, Hi2. cbn. f_equal. lia.
    + rewrite Hsl. cbn in Icnt. split.
      * change (read_receiver_alive _) with (rd_alive rd). destruct (rd_alive rd); lia.
      * intros Ha Hb Hd. destruct Icnt as [_ Icnt]. specialize (Icnt Ha Hb Hd).
        change (read_receiver_alive _) with (rd_alive rd). rewrite Ha. lia.
  - (* MProgress *)
    injection H as <-. exists nm. constructor; cbn; try assumption.
    destruct Imn as (Hp & Hc3 & _). cbn in Hp. split; [rewrite app_nil_r; assumption|]. split; [assumption|exact Logic.I].
  - (* MJoin *)
    destruct rd as [| | | |a]; try discriminate. destruct cd as [| | | |b]; try discriminate.
    destruct wr as [| | | | |c]; try discriminate. injection H as <-.
    exists nm. constructor; cbn; try assumption.
    destruct Imn as (Hp & Hc3 & _ & Hnm). split; [assumption|]. split; [assumption|]. split; [assumption|].
    exists a, b, c. auto.
  - discriminate.
Qed.

Theorem Inv_steps s : (N.of_nat CAP < two64)%N -> steps p (start src0 sk0) s ->
  exists nr nc ns nw nd nm out, Inv nr nc ns nw nd nm out s.
Proof.
  intros Hcap H.
  assert (Hg : forall s s', steps p s s' ->
    (exists nr nc ns nw nd nm out, Inv nr nc ns nw nd nm out s) ->
    exists nr nc ns nw nd nm out, Inv nr nc ns nw nd nm out s').
  { clear H s. intros s s' H. induction H as [|s s' s'' Hs H IH]; [auto|].
    intros (nr & nc & ns & nw & nd & nm & out & I). apply IH. destruct Hs as [Hs|Hs|k Hs|Hs].
    - destruct (reader_inv _ _ _ _ _ _ _ _ _ I Hs) as (nr' & I'). do 7 eexists; exact I'.
    - destruct (codec_inv _ _ _ _ _ _ _ _ _ I Hs) as (nc' & ns' & I'). do 7 eexists; exact I'.
    - destruct (writer_inv _ _ _ _ _ _ _ _ _ _ I Hs) as (nw' & nd' & out' & I'). do 7 eexists; exact I'.
    - destruct (main_inv _ _ _ _ _ _ _ _ _ Hcap I Hs) as (nm' & I'). do 7 eexists; exact I'. }
  eapply Hg; [exact H|]. exists 0, 0, 0, 0, 0, 0, []. apply Inv_start.
Qed.

End Inv.

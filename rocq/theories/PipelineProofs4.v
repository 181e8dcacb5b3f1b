(** Where the error returned by the pipeline comes from, and what the converter is given. *)
From Coq Require Import List NArith Bool Lia Arith.
From Coq.Strings Require Import Byte.
From Verif Require Import Base BaseFacts Shamir Errors Io HeaderIoSpec HeaderIoProofs Pipeline PipelineSpec StreamSpec
  ChunkProofs PipelineProofs PipelineProofs2 PipelineProofs3 ReadProofs.
Import ListNotations.

Lemma first_failure_at conv k l : length (fst (convert_seq conv k l)) < length l ->
  first_failure conv k l = Some (conv_at conv k l (length (fst (convert_seq conv k l)))).
Proof.
  revert k. induction l as [|[c f] l IH]; intros k; cbn; [lia|].
  destruct (conv c f _) as [b| |] eqn:Ec; cbn.
  - specialize (IH (S k)). destruct (convert_seq conv (S k) l) as [bs ok]; cbn in *.
    intros H. rewrite conv_at_S. apply IH. lia.
  - intros _. unfold conv_at. cbn. rewrite Nat.add_0_r, Ec. reflexivity.
  - intros _. unfold conv_at. cbn. rewrite Nat.add_0_r, Ec. reflexivity.
Qed.

Section Origin.
Context (p : pipe) (src0 : source) (sk0 : sink) (Hok : pipe_ok p).
Notation Inv := (Inv p src0 sk0).
Notation D := (D p src0).
Notation E := (E p src0).

Definition rd_end (s : pstate) : option tres := match s_rd s with RClose t | RDone t => Some t | _ => None end.
Definition cd_end (s : pstate) : option tres := match s_cd s with CClose t | CDone t => Some t | _ => None end.
Definition wr_end (s : pstate) : option tres := match s_wr s with WClose t | WDone t => Some t | _ => None end.

Definition origin (s : pstate) : Prop :=
  (forall e, rd_end s = Some (TErr e) -> e = EIo) /\
  (forall e, cd_end s = Some (TErr e) -> conv_at (p_conv p) 0 E (length D) = Err e) /\
  (cd_end s = Some TPanic -> conv_at (p_conv p) 0 E (length D) = Panic) /\
  (forall e, wr_end s = Some (TErr e) -> e = EIo).

Lemma origin_step nr nc ns nw nd nm out s s' : Inv nr nc ns nw nd nm out s -> origin s -> step p s s' -> origin s'.
Proof.
  intros I (O1 & O2 & O3 & O4) Hs.
  destruct s as [src rd ch0 ch1 cd ch2 wr sk ch3 mn idx pg].
  unfold origin, rd_end, cd_end, wr_end in *.
  cbn [s_src s_rd s_ch0 s_ch1 s_cd s_ch2 s_wr s_sink s_ch3 s_mn s_idx s_progress] in *.
  destruct Hs as [H|H|k H|H].
  - unfold step_reader, set_reader in H. cbn [s_src s_rd s_ch0 s_ch1 s_cd s_ch2 s_wr s_sink s_ch3 s_mn s_idx s_progress] in H.
    assert (Hr : forall e, rd_end s' = Some (TErr e) -> e = EIo).
    { unfold rd_end. destruct rd as [lb|c ptr|c nx|t|t].
      + destruct ch0 as [|c ch0]; [destruct (initial_sender_alive _); [discriminate|]|destruct (start_chunk lb c)];
          injection H as <-; cbn; intros; congruence.
      + destruct (Nat.leb _ _); [destruct (full_chunk c); injection H as <-; cbn; intros; congruence|].
        destruct src as [|[[|x d]| |] src]; injection H as <-; cbn; intros; congruence.
      + destruct (codec_receiver_alive _); [|injection H as <-; cbn; intros; congruence].
        destruct ch1; [|discriminate]. injection H as <-. cbn. destruct nx; intros; congruence.
      + injection H as <-; cbn in *; assumption.
      + discriminate. }
    assert (Hc : s_cd s' = cd /\ s_wr s' = wr).
    { destruct rd as [lb|c ptr|c nx|t|t].
      + destruct ch0 as [|c ch0]; [destruct (initial_sender_alive _); [discriminate|]|destruct (start_chunk lb c)];
          injection H as <-; cbn; auto.
      + destruct (Nat.leb _ _); [destruct (full_chunk c); injection H as <-; cbn; auto|].
        destruct src as [|[[|x d]| |] src]; injection H as <-; cbn; auto.
      + destruct (codec_receiver_alive _); [|injection H as <-; cbn; auto].
        destruct ch1; [|discriminate]. injection H as <-. cbn. auto.
      + injection H as <-; cbn; auto.
      + discriminate. }
    destruct Hc as [-> ->]. auto.
  - unfold step_codec, set_codec in H. cbn [s_src s_rd s_ch0 s_ch1 s_cd s_ch2 s_wr s_sink s_ch3 s_mn s_idx s_progress] in H.
    destruct cd as [|c|c|t|t].
    + destruct ch1 as [|c ch1]; [destruct (read_sender_alive _); [discriminate|]|]; injection H as <-; cbn;
        (split; [assumption|split; [congruence|split; [congruence|assumption]]]).
    + destruct I as [Iord _ Icd _ _ _ _ _ _ _]. cbn in Icd. destruct Icd as [-> ->].
      assert (Hns : ns < length E) by lia.
      change (p_conv p (ck_buf (in_chunk p src0 ns)) (ck_last (in_chunk p src0 ns)) (ck_idx (in_chunk p src0 ns)))
        with (conv_at (p_conv p) 0 E ns) in H.
      assert (Hfail : (forall b, conv_at (p_conv p) 0 E ns <> Ok b) -> ns = length D).
      { intros Hb. apply (convert_seq_fail (p_conv p) 0 E ns); [|assumption].
        unfold PipelineProofs.D, seq_converted in Iord. fold E in Iord. change (input_chunks (PipelineProofs.n p) src0) with E in Iord. lia. }
      destruct (conv_at (p_conv p) 0 E ns) as [b|e|] eqn:Ec; injection H as <-; cbn.
      * split; [assumption|split; [congruence|split; [congruence|assumption]]].
      * rewrite <- (Hfail ltac:(discriminate)). rewrite Ec.
        split; [assumption|split; [congruence|split; [congruence|assumption]]].
      * rewrite <- (Hfail ltac:(discriminate)). rewrite Ec.
        split; [assumption|split; [congruence|split; [congruence|assumption]]].
    + destruct (write_receiver_alive _).
      * destruct ch2; [|discriminate]. injection H as <-. cbn.
        split; [assumption|split; [congruence|split; [congruence|assumption]]].
      * injection H as <-. cbn. split; [assumption|split; [congruence|split; [congruence|assumption]]].
    + injection H as <-; cbn in *. auto.
    + discriminate.
  - unfold step_writer, set_writer in H. cbn [s_src s_rd s_ch0 s_ch1 s_cd s_ch2 s_wr s_sink s_ch3 s_mn s_idx s_progress] in H.
    destruct wr as [|c rest|c|c|t|t].
    + destruct ch2 as [|c ch2]; [destruct (codec_sender_alive _); [discriminate|]|]; injection H as <-; cbn;
        (split; [assumption|split; [assumption|split; [assumption|congruence]]]).
    + destruct rest as [|x rest].
      { injection H as <-; cbn. split; [assumption|split; [assumption|split; [assumption|]]].
        destruct (ck_last c); congruence. }
      destruct (w_room sk) as [[|q]|].
      * injection H as <-; cbn. split; [assumption|split; [assumption|split; [assumption|congruence]]].
      * destruct (_ && _) in H; [injection H as <-|discriminate]; cbn.
        split; [assumption|split; [assumption|split; [assumption|congruence]]].
      * destruct (_ && _) in H; [injection H as <-|discriminate]; cbn.
        split; [assumption|split; [assumption|split; [assumption|congruence]]].
    + destruct (flush sk) as [[] ]; injection H as <-; cbn;
        (split; [assumption|split; [assumption|split; [assumption|congruence]]]).
    + destruct (final_receiver_alive _); injection H as <-; cbn;
        (split; [assumption|split; [assumption|split; [assumption|congruence]]]).
    + injection H as <-; cbn in *. auto.
    + discriminate.
  - unfold step_main, set_main in H. cbn [s_src s_rd s_ch0 s_ch1 s_cd s_ch2 s_wr s_sink s_ch3 s_mn s_idx s_progress] in H.
    destruct mn as [[|k]| |c w|w| |r]; try (injection H as <-; cbn; auto; fail); try discriminate.
    + destruct ch3; [destruct (write_sender_alive _); [discriminate|]; injection H as <-; cbn; auto|].
      destruct (Nat.eqb _ _); injection H as <-; cbn; auto.
    + destruct rd; try discriminate. destruct cd; try discriminate. destruct wr; try discriminate.
      injection H as <-; cbn; auto.
Qed.

Lemma origin_steps s s' : steps p s s' -> steps p (start src0 sk0) s -> origin s -> origin s'.
Proof.
  induction 1 as [|s s' s'' Hs H IH]; intros Hr O; [assumption|].
  destruct (inv_reach p src0 sk0 Hok s Hr) as (nr & nc & ns & nw & nd & nm & out & I).
  apply IH; [eapply steps_snoc; eauto|]. eapply origin_step; eauto.
Qed.

Lemma origin_reach s : steps p (start src0 sk0) s -> origin s.
Proof.
  intros H. apply (origin_steps _ _ H); [constructor|].
  unfold origin, rd_end, cd_end, wr_end. cbn. split; [congruence|split; [congruence|split; congruence]].
Qed.

Lemma error_origin s e : steps p (start src0 sk0) s -> s_mn s = MRet (Err e) ->
  (e = EIo /\ ends_in_error src0 = true) \/
  first_failure (p_conv p) 0 (input_chunks (input_buffer_size p) src0) = Some (Err e) \/
  (e = EThreadPanic /\ first_failure (p_conv p) 0 (input_chunks (input_buffer_size p) src0) = Some Panic) \/
  (e = EIo /\ ~ (room_for sk0 (length (concat (seq_converted (p_conv p) (input_buffer_size p) src0))) /\ w_flush_ok sk0 = true)).
Proof.
  intros Hr Hm. destruct (origin_reach s Hr) as (O1 & O2 & O3 & O4).
  destruct (inv_reach p src0 sk0 Hok s Hr) as (nr & nc & ns & nw & nd & nm & out & I).
  destruct I as [Iord Ird Icd Iwr Isk Imn _ _ _ _]. destruct Imn as (_ & _ & Imn). rewrite Hm in Imn.
  destruct Imn as (Hnm & a & b & c & Ha & Hb & Hc & Hj).
  unfold rd_end, cd_end, wr_end in *. rewrite Ha, Hb, Hc in *. cbn in Ird, Icd, Iwr.
  assert (Hff : length D < length E -> first_failure (p_conv p) 0 E = Some (conv_at (p_conv p) 0 E (length D))).
  { intros H. apply first_failure_at. exact H. }
  change (input_chunks (input_buffer_size p) src0) with E.
  destruct a as [|ea| |]; try contradiction; cbn in Hj.
  2: { injection Hj as <-. left. split; [apply O1; reflexivity|apply Ird]. }
  all: clear Ird; destruct b as [|eb| |]; cbn in Hj.
  all: try (injection Hj as <-; right; left; rewrite Hff, (O2 _ eq_refl) by lia; reflexivity).
  all: try (injection Hj as <-; right; right; left; split; [reflexivity|]; rewrite Hff, (O3 eq_refl) by lia; reflexivity).
  all: destruct c as [|ec| |]; cbn in Hj; try discriminate; try contradiction.
  all: injection Hj as <-; right; right; right; split; [apply O4; reflexivity|].
  all: intros [Hroom Hfl]; change (seq_converted (p_conv p) (input_buffer_size p) src0) with D in Hroom.
  all: destruct Iwr as [(rest & Hne & Hpart & Hrm)|(Hflush & _)]; [|congruence].
  all: destruct (concat_firstn_prefix nw D) as [y Hy]; rewrite <- Hpart in Hy;
    unfold room_for in Hroom; rewrite Hrm, Hy, !app_length in Hroom; destruct rest; [contradiction|]; cbn in Hroom; lia.
Qed.

(** The chunks handed to the converter. *)
Lemma converter_input s c : steps p (start src0 sk0) s -> s_cd s = CConv c ->
  exists i, i < length E /\ nth i E ([], false) = (ck_buf c, ck_last c) /\ ck_idx c = wrap64 (N.of_nat i).
Proof.
  intros Hr Hc. destruct (inv_reach p src0 sk0 Hok s Hr) as (nr & nc & ns & nw & nd & nm & out & I).
  destruct I as [Iord _ Icd _ _ _ _ _ _ _]. rewrite Hc in Icd. cbn in Icd. destruct Icd as [-> ->].
  exists ns. split; [lia|]. cbn. split; [|reflexivity]. unfold Ei. destruct (nth ns E ([], false)); reflexivity.
Qed.

End Origin.

(** ** The reader, in terms of [is_split] *)

Lemma map_split {A B C} (f : A -> B) (g : A -> C) l (r : list (B * C)) :
  map (fun a => (f a, g a)) l = r -> map f l = map fst r /\ map g l = map snd r.
Proof. intros <-. rewrite !map_map. auto. Qed.

Lemma flag_last_map_snd cs : cs <> [] -> map snd (flag_last cs) = repeat false (length cs - 1) ++ [true].
Proof.
  induction cs as [|c [|d cs] IH]; intros H; [contradiction|reflexivity|].
  change (map snd (flag_last (c :: d :: cs))) with (false :: map snd (flag_last (d :: cs))).
  rewrite IH by discriminate. cbn. rewrite Nat.sub_0_r. reflexivity.
Qed.

Lemma reader_split n bufs src cs :
    1 <= n -> Forall (fun c => length (ck_buf c) = n) bufs -> ends_in_error src = false ->
    is_split n (flat src) cs -> length cs <= length bufs ->
    exists sent,
      read_stream src None bufs = (sent, TOk) /\
      map ck_buf sent = cs /\
      map ck_last sent = repeat false (length cs - 1) ++ [true] /\
      map ck_idx sent = firstn (length cs) (map ck_idx bufs).
Proof.
  intros Hn Hb He Hs Hl. assert (Ec : cs = chunks n (flat src)) by (eapply split_unique; eauto; apply chunks_split; assumption).
  pose proof (read_stream_spec n Hn bufs src Hb) as H. destruct (read_stream src None bufs) as [sent res].
  destruct H as (H1 & H2 & H3). unfold input_chunks in *. rewrite He in *. cbn in H3. rewrite <- Ec in *.
  rewrite firstn_all2 in H1 by (rewrite flag_last_length; assumption). apply map_split in H1. destruct H1 as [H1 H1'].
  rewrite flag_last_map_fst in H1. exists sent. subst res. split; [reflexivity|]. split; [assumption|].
  assert (Hne : cs <> []). { pose proof (chunks_length_pos n (flat src) Hn). rewrite Ec. destruct (chunks n (flat src)); [cbn in *; lia|discriminate]. }
  split; [rewrite H1'; apply flag_last_map_snd; assumption|].
  rewrite H2. f_equal. rewrite <- H1, map_length. reflexivity.
Qed.

Lemma reader_broken n bufs src cs :
    1 <= n -> Forall (fun c => length (ck_buf c) = n) bufs -> ends_in_error src = true ->
    is_split n (flat src) cs -> length cs <= length bufs ->
    exists sent,
      read_stream src None bufs = (sent, TErr EIo) /\
      map ck_buf sent = removelast cs /\
      Forall (fun c => ck_last c = false) sent /\
      map ck_idx sent = firstn (length cs - 1) (map ck_idx bufs).
Proof.
  intros Hn Hb He Hs Hl. assert (Ec : cs = chunks n (flat src)) by (eapply split_unique; eauto; apply chunks_split; assumption).
  pose proof (chunks_length_pos n (flat src) Hn) as Hp. rewrite <- Ec in Hp.
  pose proof (read_stream_spec n Hn bufs src Hb) as H. destruct (read_stream src None bufs) as [sent res].
  destruct H as (H1 & H2 & H3). unfold input_chunks in *. rewrite He in *. cbn [andb] in H3. rewrite <- Ec in *.
  rewrite map_length, removelast_length in H3. destruct (Nat.ltb_spec (length cs - 1) (length bufs)); [|lia].
  rewrite firstn_all2 in H1 by (rewrite map_length, removelast_length; lia).
  apply map_split in H1. destruct H1 as [H1 H1']. rewrite map_map in H1, H1'. cbn in H1, H1'. rewrite map_id in H1.
  exists sent. subst res. split; [reflexivity|]. split; [assumption|]. split.
  - apply Forall_forall. intros c Hc. apply (in_map ck_last) in Hc. rewrite H1' in Hc. apply in_map_iff in Hc.
    destruct Hc as (? & <- & _). reflexivity.
  - rewrite H2. f_equal. rewrite <- (map_length ck_buf), H1. apply removelast_length.
Qed.

Lemma converter_split p src w s c cs :
    pipe_ok p -> steps p (start src w) s -> s_cd s = CConv c -> is_split (input_buffer_size p) (flat src) cs ->
    exists i,
      i < length cs /\ nth_error cs i = Some (ck_buf c) /\ ck_idx c = wrap64 (N.of_nat i) /\
      (ck_last c = true <-> S i = length cs) /\ (S i = length cs -> ends_in_error src = false).
Proof.
  intros Hok Hs Hc Hsp. pose proof (Hn p Hok) as Hn.
  assert (Ec : cs = chunks (input_buffer_size p) (flat src)) by (eapply split_unique; eauto; apply chunks_split; apply Hok).
  destruct (converter_input p src w Hok s c Hs Hc) as (i & Hi & Hnth & Hidx).
  pose proof (input_length (input_buffer_size p) src) as Hl. rewrite <- Ec in Hl.
  unfold PipelineProofs.E, PipelineProofs.n in *.
  assert (Hin : i < length cs /\ nth i (input_chunks (input_buffer_size p) src) ([], false) =
    (nth i cs [], negb (ends_in_error src) && Nat.eqb (S i) (length cs)) /\ (S i = length cs -> ends_in_error src = false)).
  { unfold input_chunks in *. destruct (ends_in_error src) eqn:Ee; rewrite <- Ec in *.
    - split; [lia|]. split; [|lia]. cbn.
      change ([], false) with ((fun c : bytes => (c, false)) []). rewrite map_nth. f_equal.
      apply removelast_nth. lia.
    - split; [lia|]. split; [|reflexivity]. cbn. apply flag_last_nth. lia. }
  destruct Hin as (H1 & H2 & H3). rewrite Hnth in H2. injection H2 as H2 H2'.
  exists i. split; [assumption|]. split; [rewrite H2; apply nth_error_nth'; assumption|]. split; [assumption|].
  split; [|assumption]. rewrite H2'. split.
  - intros H. apply andb_prop in H. apply Nat.eqb_eq. apply H.
  - intros H. rewrite (H3 H). rewrite <- H. apply Nat.eqb_refl.
Qed.

Lemma main_never_panics p src w s :
    pipe_ok p -> steps p (start src w) s ->
    s_mn s <> MRet Panic /\
    Forall (fun k => (k <= N.of_nat (input_buffer_size p))%N) (s_progress s).
Proof.
  intros Hok Hs. pose proof (Hn p Hok) as Hn.
  destruct (inv_reach p src w Hok s Hs) as (nr & nc & ns & nw & nd & nm & out & I).
  split.
  - intros H. destruct (inv_final p src w Hn _ _ _ _ _ _ _ _ _ I H) as (_ & _ & H' & _). congruence.
  - destruct I as [Iord _ _ _ _ Imn _ _ _ _]. destruct Imn as (Hpg & _ & _).
    assert (Hf : Forall (fun k => (k <= N.of_nat (input_buffer_size p))%N) (s_progress s ++ pend (s_mn s))).
    { rewrite Hpg. apply Forall_forall. intros k Hk. apply in_map_iff in Hk. destruct Hk as (i & <- & Hi). apply in_seq in Hi.
      unfold size_of, Ei, lenN. pose proof (D_E p src).
      pose proof (input_le (input_buffer_size p) Hn src i ([], false)) as Hle. unfold PipelineProofs.E, PipelineProofs.n in *.
      specialize (Hle ltac:(lia)). lia. }
    apply Forall_app in Hf. apply Hf.
Qed.

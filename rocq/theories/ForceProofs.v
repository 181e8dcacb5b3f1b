(** Proofs about conversions with force, where inputs and outputs are ordinary files (C90). *)
From Coq.Strings Require Import Byte String.
From Coq Require Import List NArith ZArith Bool PeanoNat Lia.
From Verif Require Import Base BaseFacts Shamir Errors Io HeaderIoSpec StreamSpec Text Util CliErrors Crypto HeaderCrypto CredSpec FileCrypto Ui UiSpec Paths Cli Fs Commands FsSpec FsProofs ConvProofs FsProofs2 FsProofs3 FsProofs4 ForceSpec.
From Verif Require FsProofs11 FsProofs13.
Import ListNotations.
Local Open Scope N_scope.

(** Where the output can go: a free entry with a new inode, or an ordinary file. *)
Definition room_at (f : fs) (t i : N) : Prop :=
  fresh f t i \/ (f_entries f t = Some (EFile i) /\ exists c, f_nodes f i = Some (mkNode true c 1)).

Lemma intact_refl f s : intact f f s.
Proof. split; auto. Qed.
Lemma intact_step f g h s : intact f g s -> intact g h s -> intact f h s.
Proof. intros [A B] [C D]. split; [congruence|]. intros i E. rewrite <- (B i E). apply D. congruence. Qed.
Lemma intact_plain f g s b : intact f g s -> plain_file f s b -> plain_file g s b.
Proof. intros [A B] (i & C & D). exists i. split; [congruence|]. rewrite B; assumption. Qed.
Lemma intact_ordinary f g s : intact f g s -> ordinary f s -> ordinary g s.
Proof. intros K [E|(b & P)]; [left; rewrite (proj1 K); exact E|right; exists b; eapply intact_plain; eassumption]. Qed.

Lemma room_alone f t i : wf_fs f -> room_at f t i -> forall u, u <> t -> f_entries f u <> Some (EFile i).
Proof.
  intros [_ W] [(_ & _ & F)|(E & c & C)] u D Eu; [exact (F u Eu)|]. pose proof (W u t i _ Eu E D C) as L. cbn in L. lia.
Qed.
Lemma room_wf f t i out g : wf_fs f -> room_at f t i -> created f t i out g -> wf_fs g.
Proof.
  intros W R [A B]. pose proof (room_alone f t i W R) as Al. destruct W as [W1 W2]. split.
  - intros s j. rewrite A, B. destruct (N.eqb_spec s t) as [->|D].
    + intros [= ->]. rewrite N.eqb_refl. eexists. split; [reflexivity|]. cbn. lia.
    + intros E. destruct (N.eqb_spec j i) as [->|]; [destruct (Al s D E)|]. eapply W1, E.
  - intros s u j n. rewrite !A, B. destruct (N.eqb_spec s t) as [->|D1]; destruct (N.eqb_spec u t) as [->|D2]; intros E1 E2 D.
    + contradiction D; reflexivity.
    + injection E1 as ->. destruct (Al u D2 E2).
    + injection E2 as ->. destruct (Al s D1 E1).
    + destruct (N.eqb_spec j i) as [->|]; [destruct (Al s D1 E1)|]. intros En. exact (W2 s u j n E1 E2 D En).
Qed.
Lemma room_intact f t i out g : wf_fs f -> room_at f t i -> created f t i out g -> forall u, u <> t -> intact f g u.
Proof.
  intros W R [A B] u D. split; [rewrite A; destruct (N.eqb_spec u t); [contradiction|reflexivity]|].
  intros j E. rewrite B. destruct (N.eqb_spec j i) as [->|]; [destruct (room_alone f t i W R u D E)|reflexivity].
Qed.

(** How the file system changes when only the entry [t] may change. *)
Definition only (t : N) (f g : fs) : Prop := wf_fs g /\ ordinary g t /\ forall u, u <> t -> intact f g u.
Lemma only_created f t i out g : wf_fs f -> room_at f t i -> created f t i out g -> only t f g.
Proof.
  intros W R C. split; [eapply room_wf; eassumption|]. split; [right; exists out; eapply created_plain, C|]. eapply room_intact; eassumption.
Qed.
Lemma only_unlink f t i out g : wf_fs f -> room_at f t i -> created f t i out g -> only t f (unlink g t).
Proof.
  intros W R C. destruct (unlink_plain g t out (room_wf _ _ _ _ _ W R C) (created_plain _ _ _ _ _ C)) as (A & B & D).
  split; [exact A|]. split; [left; exact B|]. intros u Du. eapply intact_step; [eapply room_intact; eassumption|apply D, Du].
Qed.

Lemma write_over f t i w : created f t i [] (w_fs w) ->
  forall d w', w' = write_out (WriteNode i) d w ->
  created f t i d (w_fs w') /\ (forall g, In g (moments w') -> In g (moments w) \/ exists out, created f t i out g).
Proof.
  intros C0 d w' Hw. unfold write_out in Hw. pose proof (proj2 C0 i) as E0. rewrite N.eqb_refl in E0. rewrite E0 in Hw.
  cbn [n_regular n_content app] in Hw. subst w'.
  assert (K : forall m, (m <= length d)%nat ->
    let w' := fold_left (fun w k => set_fs w (set_content (w_fs w) i (firstn k d))) (seq 1 m) w in
    created f t i (firstn m d) (w_fs w') /\ (forall g, In g (moments w') -> In g (moments w) \/ exists out, created f t i out g)).
  { induction m as [|m IH]; intros Lm; cbv zeta.
    - cbn. split; [exact C0|]. auto.
    - rewrite seq_S, fold_left_app. cbn [fold_left]. cbv zeta in IH. destruct (IH ltac:(lia)) as (A & D). clear IH.
      set (w1 := fold_left _ (seq 1 m) w) in *. change (1 + m)%nat with (S m).
      destruct A as [A1 A2]. pose proof (A2 i) as Ei. rewrite N.eqb_refl in Ei.
      destruct (set_content_nodes _ _ _ (firstn (S m) d) Ei) as [S1 S2]. cbn [n_regular n_links] in S2.
      assert (C2 : created f t i (firstn (S m) d) (set_content (w_fs w1) i (firstn (S m) d))).
      { split; [intros s; rewrite S1; apply A1|]. intros j. rewrite S2. destruct (N.eqb_spec j i) as [->|D']; [reflexivity|]. rewrite A2. destruct (N.eqb_spec j i); [contradiction|reflexivity]. }
      split; [exact C2|]. intros g [<-|Ig]; [right; exists (firstn (S m) d); exact C2|]. apply D. exact Ig. }
  specialize (K (length d) (le_n _)). cbv zeta in K. rewrite firstn_all in K. exact K.
Qed.

Section WithEnvironment.
Variable entry_of : names.
Variable lib : crypto_lib.
Hypothesis Hlib : lib_ok lib.

Lemma convert_over d rd t i f w r w' : created f t i [] (w_fs w) -> convert entry_of lib d rd (WriteNode i) w r w' ->
  exists out, created f t i out (w_fs w') /\
  (forall g, In g (moments w') -> In g (moments w) \/ exists out', created f t i out' g) /\
  (r = Ok tt -> exists b, is_conversion lib d b out /\
     forall j n, rd = ReadNode j -> f_nodes (w_fs w) j = Some n -> n_regular n = true -> j <> i -> b = n_content n).
Proof.
  intros Ew (er & src & room & fl & r0 & snk & k & Hr & Hk & Hp & Hc & K).
  destruct K as [(-> & ->)|(-> & _ & out & _ & ->)].
  - exists (w_out snk). destruct (write_over f t i w Ew (w_out snk) _ eq_refl) as (A & D). split; [exact A|]. split; [exact D|]. intros E.
    assert (r0 = Ok tt) as -> by (destruct r0 as [[]| |]; [reflexivity|discriminate E..]).
    exists (flat src). pose proof (conversion_reads_all lib Hlib _ _ _ _ _ Hr Hc) as Ee. split.
    + exists er, src, room, fl, snk. auto.
    + intros j n -> Ej Rn Nj. unfold provides in Hp. rewrite Ej, Ee in Hp. apply Hp; [exact Rn|]. intros [= X]. exact (Nj (eq_sym X)).
  - exists out. destruct (write_over f t i w Ew out _ eq_refl) as (A & D). split; [exact A|]. split; [exact D|]. discriminate.
Qed.

(** Opening an ordinary input, with or without force. *)
Lemma open_ordinary p s force w rd w' : entry_of p = Some s -> ordinary (w_fs w) s -> open_input entry_of (IFile p) force w (Ok rd) w' ->
  exists i b, f_entries (w_fs w) s = Some (EFile i) /\ f_nodes (w_fs w) i = Some (mkNode true b 1) /\ rd = ReadNode i.
Proof.
  intros Es O H. cbn [open_input] in H. apply bind_ok_inv in H as ([rd' md] & w1 & H1 & H).
  apply bind_ok_inv in H as (x & w2 & _ & H). apply bind_ok_inv in H as (x' & w3 & _ & H). apply bind_ok_inv in H as (x'' & w4 & _ & H).
  destruct H as [E _]. injection E as <-. destruct (open_file_ok _ _ _ _ _ _ H1) as (s' & Es' & Em & _ & Hr). assert (s' = s) by congruence. subst s'.
  destruct O as [N|(b & i & A & B)]; [unfold metadata_of in Em; rewrite N in Em; discriminate Em|]. exists i, b. auto.
Qed.
(** Opening an output where there is an ordinary file or nothing. *)
Lemma output_ordinary q t force w r w' : entry_of q = Some t -> ordinary (w_fs w) t -> open_output entry_of (OFile q) force w r w' ->
  (w' = w /\ r = Err CIo) \/
  exists i, r = Ok (WriteNode i) /\ room_at (w_fs w) t i /\ created (w_fs w) t i [] (w_fs w') /\ moments w' = w_fs w' :: moments w.
Proof.
  intros Et O H. cbn [open_output] in H. destruct force.
  - destruct H as [(-> & -> & _)|(t1 & t2 & i & Et1 & Ef & -> & K)]; [left; auto|]. right. exists i. split; [reflexivity|]. assert (t1 = t) by congruence. subst t1.
    assert (t2 = t) as ->.
    { unfold max_links in Ef. cbn [follow] in Ef. destruct O as [E|(b & j & E & _)]; rewrite E in Ef; congruence. }
    destruct K as [(E & [U1 U2] & ->)|(n & E & En & ->)].
    + split; [left; split; [exact E|split; assumption]|]. split; [|reflexivity]. cbn [set_fs w_fs]. unfold add_file, created, update. cbn [f_entries f_nodes]. split; reflexivity.
    + destruct O as [E'|(b & j & E' & En')]; [congruence|]. assert (j = i) by congruence. subst j. assert (n = mkNode true b 1) by congruence. subst n. cbn [n_regular].
      split; [right; split; [exact E|eauto]|]. split; [|reflexivity]. cbn [set_fs w_fs]. destruct (set_content_nodes _ _ _ [] En) as [S1 S2]. cbn [n_regular n_links] in S2. split.
      * intros s. rewrite S1. destruct (N.eqb_spec s t) as [->|]; [exact E|reflexivity].
      * intros j. rewrite S2. reflexivity.
  - destruct H as [(-> & -> & _)|(t1 & i & Et1 & E & [U1 U2] & -> & ->)]; [left; auto|]. right. exists i. split; [reflexivity|]. assert (t1 = t) by congruence. subst t1.
    split; [left; split; [exact E|split; assumption]|]. split; [|reflexivity]. cbn [set_fs w_fs]. unfold add_file, created, update. cbn [f_entries f_nodes]. split; reflexivity.
Qed.

Lemma attempt_over {k n} st force d w r w' p s q t : attempt entry_of lib k n st force d w r w' ->
  s_input st = IFile p -> entry_of p = Some s -> s_output st = Ok (OFile q) -> entry_of q = Some t -> s <> t ->
  wf_fs (w_fs w) -> ordinary (w_fs w) s -> ordinary (w_fs w) t ->
  (same_files w w' /\ (r = Panic \/ exists e, r = Ok (Err e, None))) \/
  (exists i out b, plain_file (w_fs w) s b /\ room_at (w_fs w) t i /\ created (w_fs w) t i out (w_fs w') /\
     (forall g, In g (moments w') -> In g (moments w) \/ exists out', created (w_fs w) t i out' g) /\
     (r = Panic \/ exists x, r = Ok (x, Some q) /\ x <> Panic /\ (x = Ok tt -> is_conversion lib d b out))).
Proof.
  intros H Ei Es Eo Et Ns W Os Ot. unfold attempt in H.
  match type of H with io_bind (io_try ?m) _ _ _ _ => set (opening := m) in H end.
  assert (O : forall r w', opening w r w' ->
    (same_files w w' /\ (r = Panic \/ exists e, r = Err e)) \/
    (exists i rd j b, room_at (w_fs w) t i /\ r = Ok (rd, WriteNode i, Some q) /\ created (w_fs w) t i [] (w_fs w') /\
       moments w' = w_fs w' :: moments w /\ f_entries (w_fs w) s = Some (EFile j) /\ f_nodes (w_fs w) j = Some (mkNode true b 1) /\ rd = ReadNode j)).
  { clear H r w'. intros r w' H. unfold opening in H.
    destruct H as [(x & w1 & H1 & H)|[(e & H1 & ->)|(H1 & ->)]];
      [|left; split; [eapply quiet_ui, H1|eauto]..].
    apply quiet_ui in H1. destruct H as [(o & w2 & H2 & H)|[(e & H2 & ->)|(H2 & ->)]];
      [|left; split; [eapply same_trans; [exact H1|eapply quiet_lift, H2]|eauto]..].
    destruct H2 as [Eo2 ->]. destruct H as [(rd & w3 & H3 & H)|[(e & H3 & ->)|(H3 & ->)]];
      [|left; split; [eapply same_trans; [exact H1|eapply quiet_open_input, H3]|eauto]..].
    rewrite Eo in Eo2. injection Eo2 as ->. pose proof (quiet_open_input _ _ _ _ _ _ H3) as Q3. rewrite Ei in H3.
    apply (open_ordinary p s) in H3 as (j & b & A & B & C); [|exact Es|rewrite (proj1 H1); exact Os]. rewrite (proj1 H1) in A, B.
    pose proof (same_trans _ _ _ H1 Q3) as Q. clear H1 Q3.
    assert (OO : forall r4 w4, open_output entry_of (OFile q) force w3 r4 w4 -> (same_files w w4 /\ r4 = Err CIo) \/
      exists i, r4 = Ok (WriteNode i) /\ room_at (w_fs w) t i /\ created (w_fs w) t i [] (w_fs w4) /\ moments w4 = w_fs w4 :: moments w).
    { intros r4 w4 H4. apply (output_ordinary q t) in H4; [|exact Et|rewrite (proj1 Q); exact Ot].
      destruct H4 as [(-> & ->)|(i & -> & R & K & M)]; [left; auto|]. right. exists i. rewrite (proj1 Q) in R, K. rewrite (moments_same _ _ Q) in M. auto. }
    destruct H as [(wr & w4 & H4 & H)|[(e & H4 & ->)|(H4 & ->)]]; destruct (OO _ _ H4) as [(Q4 & E)|(i & E & R & K & M)]; try discriminate E.
    - injection E as ->. destruct H as [-> ->]. right. exists i, rd, j, b. cbn [output_cleanup]. auto 10.
    - left. split; [exact Q4|eauto]. }
  clearbody opening.
  destruct H as [(op & w1 & H1 & H)|[(e & H1 & ->)|(H1 & ->)]].
  2:{ destruct H1 as [(x & _ & _ & E)|(_ & E)]; discriminate E. }
  2:{ destruct H1 as [(x & _ & _ & E)|(H1 & _)]; [discriminate E|]. destruct (O _ _ H1) as [(Q & _)|(i & rd & j & b & _ & E & _)]; [|discriminate E].
      left. split; [exact Q|left; reflexivity]. }
  destruct H1 as [(x & Nx & H1 & E)|(_ & E)]; [|discriminate E]. injection E as ->.
  destruct (O _ _ H1) as [(Q & [->|(e & ->)])|(i & rd & j & b & R & -> & C0 & M & A & B & Er)]; clear O H1; [contradiction Nx; reflexivity| |].
  - destruct H as [-> ->]. left. split; [exact Q|eauto].
  - right. exists i.
    assert (Z : forall rr w2, convert entry_of lib d rd (WriteNode i) w1 rr w2 -> exists out, created (w_fs w) t i out (w_fs w2) /\
      (forall g, In g (moments w2) -> In g (moments w) \/ exists out', created (w_fs w) t i out' g) /\ (rr = Ok tt -> is_conversion lib d b out)).
    { intros rr w2 H2. destruct (convert_over d rd t i (w_fs w) _ _ _ C0 H2) as (out & K1 & K2 & K3). exists out. split; [exact K1|]. split.
      - intros g Ig. destruct (K2 g Ig) as [I|I]; [|auto]. rewrite M in I. destruct I as [<-|I]; eauto.
      - intros E. destruct (K3 E) as (b' & Cb & Hb).
        assert (Nj : j <> i). { intros ->. exact (room_alone _ _ _ W R s Ns A). }
        assert (Ej : f_nodes (w_fs w1) j = Some (mkNode true b 1)) by (rewrite (proj2 C0); destruct (N.eqb_spec j i); [contradiction|exact B]).
        pose proof (Hb j _ Er Ej eq_refl Nj) as X. cbn [n_content] in X. subst b'. exact Cb. }
    assert (Pb : plain_file (w_fs w) s b) by (exists j; auto).
    destruct H as [(rr & w2 & H2 & H)|[(e & H2 & ->)|(H2 & ->)]].
    + destruct H as [-> ->]. destruct H2 as [(y & Ny & H2 & E)|(_ & E)]; [|discriminate E]. injection E as ->.
      destruct (Z _ _ H2) as (out & K1 & K2 & K3). exists out, b. do 4 (split; [assumption|]). right. exists y. auto.
    + destruct H2 as [(y & _ & _ & E)|(_ & E)]; discriminate E.
    + destruct H2 as [(y & _ & _ & E)|(H2 & _)]; [discriminate E|]. destruct (Z _ _ H2) as (out & K1 & K2 & K3). exists out, b. do 4 (split; [assumption|]). auto.
Qed.

(** One stream: nothing but its output changes; if the input is missing, nothing at all. *)
Lemma step_over {k n} st force d w r w' p s q t : step entry_of lib k n st force d w r w' ->
  s_input st = IFile p -> entry_of p = Some s -> s_output st = Ok (OFile q) -> entry_of q = Some t -> s <> t ->
  wf_fs (w_fs w) -> ordinary (w_fs w) s -> ordinary (w_fs w) t ->
  (forall g, In g (moments w') -> In g (moments w) \/ only t (w_fs w) g) /\ only t (w_fs w) (w_fs w') /\
  (f_entries (w_fs w) s = None -> same_files w w') /\
  (r = Panic \/
   (r = Ok ([p], []) /\ exists b, plain_file (w_fs w) s b /\ has_conversion entry_of lib d b (w_fs w') q) \/
   exists e, r = Ok ([], [e])).
Proof.
  intros H Ei Es Eo Et Ns W Os Ot. unfold step in H.
  assert (S0 : forall v, same_files w v -> (forall g, In g (moments v) -> In g (moments w) \/ only t (w_fs w) g) /\ only t (w_fs w) (w_fs v)).
  { intros v Q. rewrite (moments_same _ _ Q), (proj1 Q). split; [auto|]. split; [exact W|]. split; [exact Ot|]. intros u _. apply intact_refl. }
  assert (PE : forall e v rr v', io_ui (ignore (print_error e)) v rr v' -> rr = Ok tt /\ same_files v v').
  { clear. intros e v rr v' H. pose proof (quiet_ui _ _ _ _ H) as Q. destruct H as [-> _]. split; [|exact Q]. unfold ignore.
    assert (NP : fst (print_error e (w_ui v)) <> Panic) by (unfold print_error, emit; destruct (will_print _ _); [destruct (u_room _) as [[|]|]|]; discriminate).
    destruct (print_error e (w_ui v)) as [[[]| |] u]; [reflexivity..|contradiction NP; reflexivity]. }
  destruct H as [([res cb] & w1 & H1 & H)|[(e & H1 & ->)|(H1 & ->)]];
    destruct (attempt_over _ _ _ _ _ _ _ _ _ _ H1 Ei Es Eo Et Ns W Os Ot) as [(Q & K)|(i & out & b & Pb & R & C & M & K)]; clear H1.
  - destruct K as [K|(e & K)]; [discriminate K|]. injection K as -> ->.
    destruct H as [(u & w2 & H2 & H)|[(e2 & H2 & ->)|(H2 & ->)]]; destruct (PE _ _ _ _ H2) as [E Q2]; try discriminate E.
    destruct H as [(u' & w3 & [_ ->] & H)|[(e2 & [E' _] & _)|([E' _] & _)]]; [|discriminate E'..]. destruct H as [-> ->].
    pose proof (same_trans _ _ _ Q Q2) as Q'. destruct (S0 _ Q') as [A B]. do 2 (split; [assumption|]). split; [auto|]. eauto.
  - destruct K as [K|(x & K & Nx & Kx)]; [discriminate K|]. injection K as -> ->.
    assert (Nn : f_entries (w_fs w) s = None -> same_files w w') by (destruct Pb as (j & A & _); congruence).
    assert (M1 : forall g, In g (moments w1) -> In g (moments w) \/ only t (w_fs w) g).
    { intros g Ig. destruct (M g Ig) as [I|(o & I)]; [auto|]. right. eapply only_created; eassumption. }
    destruct x as [[]|e|]; [| |contradiction Nx; reflexivity].
    + destruct H as [-> ->]. split; [exact M1|]. split; [eapply only_created; eassumption|]. split; [exact Nn|]. right. left. rewrite Ei. split; [reflexivity|].
      exists b. split; [exact Pb|]. exists t, out. split; [exact Et|]. split; [eapply created_plain, C|apply Kx; reflexivity].
    + destruct H as [(u & w2 & H2 & H)|[(e2 & H2 & ->)|(H2 & ->)]]; destruct (PE _ _ _ _ H2) as [E Q2]; try discriminate E.
      destruct H as [(u' & w3 & H3 & H)|[(e3 & H3 & ->)|(H3 & ->)]].
      2,3: destruct (remove_cb_spec _ _ _ _ _ _ H3) as [E' _]; discriminate E'.
      destruct H as [-> ->]. destruct (remove_cb_spec _ _ _ _ _ _ H3) as (_ & K). clear H3 H2.
      assert (G : (forall g, In g (moments w3) -> In g (moments w) \/ only t (w_fs w) g) /\ only t (w_fs w) (w_fs w3)).
      { destruct K as [(Q3 & _)|(t' & Et' & _ & _ & [(A & B & D)|(A & B & D)])].
        - pose proof (same_trans _ _ _ Q2 Q3) as Q'. rewrite (moments_same _ _ Q'), (proj1 Q'). split; [exact M1|eapply only_created; eassumption].
        - assert (Em : moments w3 = moments w1) by (unfold moments; rewrite A, B; exact (moments_same _ _ Q2)). rewrite Em, A, (proj1 Q2). split; [exact M1|eapply only_created; eassumption].
        - assert (t' = t) by congruence. subst t'. rewrite (proj1 Q2) in A. pose proof (only_unlink _ _ _ _ _ W R C) as Ou. rewrite <- A in Ou. split; [|exact Ou].
          unfold moments at 1. rewrite B. intros g [<-|Ig]; [auto|]. rewrite (moments_same _ _ Q2) in Ig. auto. }
      destruct G as [G1 G2]. do 2 (split; [assumption|]). split; [exact Nn|]. eauto.
  - destruct K as [K|(e' & K)]; discriminate K.
  - destruct K as [K|(x & K & _)]; discriminate K.
  - destruct (S0 _ Q) as [A B]. do 2 (split; [assumption|]). auto.
  - split; [|split; [eapply only_created; eassumption|split; [destruct Pb as (j & A & _); congruence|auto]]].
    intros g Ig. destruct (M g Ig) as [I|(o & I)]; [auto|]. right. eapply only_created; eassumption.
Qed.

(** A stream that reads or writes nowhere. *)
Definition idle (st : io_stream) : Prop :=
  forall p s q t, s_input st = IFile p -> entry_of p = Some s -> s_output st = Ok (OFile q) -> entry_of q = Some t -> False.
Lemma in_order_cases f st : in_order entry_of f st -> (exists p, s_input st = IFile p) /\ s_output st <> Ok OStdout /\
  ((exists p s q t, s_input st = IFile p /\ entry_of p = Some s /\ s_output st = Ok (OFile q) /\ entry_of q = Some t /\ ordinary f s /\ ordinary f t) \/ idle st).
Proof.
  intros ((p & Ei) & No & O). split; [eauto|]. split; [exact No|]. destruct (s_output st) as [[q|]| |] eqn:Eo.
  2:{ contradiction No. reflexivity. }
  2,3: right; intros p' s q t _ _ E; rewrite Eo in E; discriminate E.
  destruct (entry_of p) as [s|] eqn:Es; [|right; intros p' s q' t E1 E2; congruence]. destruct (entry_of q) as [t|] eqn:Et; [|right; intros p' s' q' t E1 E2 E3 E4; congruence].
  left. exists p, s, q, t. destruct (O p s q t Ei Es eq_refl Et). auto 8.
Qed.
Lemma step_idle {k n} st force d w r w' : step entry_of lib k n st force d w r w' -> (exists p, s_input st = IFile p) -> s_output st <> Ok OStdout -> idle st ->
  same_files w w' /\ (r = Panic \/ exists e, r = Ok ([], [e])).
Proof.
  intros H (p & Ei) No Id.
  assert (A : forall ra wa, attempt entry_of lib k n st force d w ra wa -> same_files w wa /\ (ra = Panic \/ exists e, ra = Ok (Err e, None))).
  { clear H r w'. intros r w' H. unfold attempt in H.
    match type of H with io_bind (io_try ?m) _ _ _ _ => set (opening := m) in H end.
    assert (O : forall r w', opening w r w' -> same_files w w' /\ (r = Panic \/ exists e, r = Err e)).
    { clear H r w'. intros r w' H. unfold opening in H.
      destruct H as [(x & w1 & H1 & H)|[(e & H1 & ->)|(H1 & ->)]]; [|split; [eapply quiet_ui, H1|eauto]..].
      apply quiet_ui in H1. destruct H as [(o & w2 & H2 & H)|[(e & H2 & ->)|(H2 & ->)]];
        [|split; [eapply same_trans; [exact H1|eapply quiet_lift, H2]|eauto]..].
      destruct H2 as [Eo2 ->]. destruct H as [(rd & w3 & H3 & H)|[(e & H3 & ->)|(H3 & ->)]];
        [|split; [eapply same_trans; [exact H1|eapply quiet_open_input, H3]|eauto]..].
      pose proof (same_trans _ _ _ H1 (quiet_open_input _ _ _ _ _ _ H3)) as Q. rewrite Ei in H3. cbn [open_input] in H3.
      apply bind_ok_inv in H3 as ([rd' md] & w4 & H3 & _). destruct (open_file_ok _ _ _ _ _ _ H3) as (s & Es & _). destruct o as [q|]; [|contradiction No; symmetry; exact Eo2].
      assert (OO : forall r4 w4, open_output entry_of (OFile q) force w3 r4 w4 -> w4 = w3 /\ r4 = Err CIo).
      { intros r4 w5 H4. cbn [open_output] in H4. destruct force.
        - destruct H4 as [(-> & -> & _)|(t1 & t2 & i & Et1 & _)]; [auto|]. destruct (Id p s q t1 Ei Es (eq_sym Eo2) Et1).
        - destruct H4 as [(-> & -> & _)|(t1 & i & Et1 & _)]; [auto|]. destruct (Id p s q t1 Ei Es (eq_sym Eo2) Et1). }
      destruct H as [(wr & w5 & H4 & H)|[(e & H4 & ->)|(H4 & ->)]]; destruct (OO _ _ H4) as (-> & E); try discriminate E. split; [exact Q|eauto]. }
    clearbody opening.
    destruct H as [(op & w1 & H1 & H)|[(e & H1 & ->)|(H1 & ->)]].
    2:{ destruct H1 as [(x & _ & _ & E)|(_ & E)]; discriminate E. }
    2:{ destruct H1 as [(x & _ & _ & E)|(H1 & _)]; [discriminate E|]. destruct (O _ _ H1) as (Q & _). auto. }
    destruct H1 as [(x & Nx & H1 & E)|(_ & E)]; [|discriminate E]. injection E as ->.
    destruct (O _ _ H1) as (Q & [->|(e & ->)]); [contradiction Nx; reflexivity|]. destruct H as [-> ->]. eauto. }
  unfold step in H. destruct H as [([res cb] & w1 & H1 & H)|[(e & H1 & ->)|(H1 & ->)]]; destruct (A _ _ H1) as (Q & [E|(e' & E)]); try discriminate E; [|auto].
  injection E as -> ->.
  destruct H as [(u & w2 & H2 & H)|[(e2 & H2 & ->)|(H2 & ->)]]; pose proof (quiet_ui _ _ _ _ H2) as Q2; destruct H2 as [E2 _];
    rewrite FsProofs11.ignore_ok in E2 by apply FsProofs13.print_error_calm; try discriminate E2.
  destruct H as [(u' & w3 & [_ ->] & H)|[(e2 & [E' _] & _)|([E' _] & _)]]; [|discriminate E'..]. destruct H as [-> ->]. split; [eapply same_trans; eassumption|eauto].
Qed.

(** ** The loop *)

(** How the file system changes when only the outputs of [l] may change, and those of missing inputs not either. *)
Definition outputs_only (l : list io_stream) (f g : fs) : Prop :=
  wf_fs g /\ (forall u, ~ is_output entry_of l u -> intact f g u) /\
  (forall st p s q t, In st l -> s_input st = IFile p -> entry_of p = Some s -> s_output st = Ok (OFile q) -> entry_of q = Some t ->
     ordinary g t /\ (f_entries f s = None -> intact f g t)).
Definition done (d : direction_opts) (f g : fs) (st : io_stream) : Prop :=
  exists s q b, converts entry_of st s q /\ plain_file f s b /\ has_conversion entry_of lib d b g q.

Lemma conversion_intact d b f g q t : entry_of q = Some t -> intact f g t -> has_conversion entry_of lib d b f q -> has_conversion entry_of lib d b g q.
Proof. intros Et K (t' & c & Et' & Pc & Ic). assert (t' = t) by congruence. subst t'. exists t, c. split; [exact Et|]. split; [eapply intact_plain; eassumption|exact Ic]. Qed.
Lemma separate_cons st l : separate entry_of (st :: l) -> separate entry_of l.
Proof. intros S a a' p q s I I'. apply S; right; assumption. Qed.
Lemma distinct_cons st l : distinct_outputs entry_of (st :: l) -> distinct_outputs entry_of l /\
  forall q t, s_output st = Ok (OFile q) -> entry_of q = Some t -> ~ is_output entry_of l t.
Proof.
  intros D. split.
  - intros l1 a l2 a' l3 q q' t E. apply (D (st :: l1) a l2 a' l3). rewrite E. reflexivity.
  - intros q t Eo Et (a & q' & I & Eo' & Et'). apply in_split in I as (l1 & l2 & ->). exact (D [] st l1 a l2 q q' t eq_refl Eo Eo' Et Et').
Qed.
Lemma distinct_same l st st' q q' t : distinct_outputs entry_of l -> In st l -> In st' l -> s_output st = Ok (OFile q) -> s_output st' = Ok (OFile q') ->
  entry_of q = Some t -> entry_of q' = Some t -> st = st'.
Proof.
  intros D I I' Eo Eo' Et Et'. apply in_split in I as (l1 & l2 & ->). apply in_app_or in I' as [I'|[I'|I']]; [|exact I'|].
  - apply in_split in I' as (l3 & l4 & ->). exfalso. eapply (D l3 st' l4 st l2); [rewrite <- app_assoc; reflexivity|eassumption..].
  - apply in_split in I' as (l3 & l4 & ->). exfalso. eapply (D l1 st l3 st' l4); [reflexivity|eassumption..].
Qed.

Lemma process_over {k n} force d l : forall w r w', process entry_of lib k n l force d w r w' ->
  wf_fs (w_fs w) -> (forall st, In st l -> in_order entry_of (w_fs w) st) -> separate entry_of l -> distinct_outputs entry_of l ->
  (forall g, In g (moments w') -> In g (moments w) \/ outputs_only l (w_fs w) g) /\ outputs_only l (w_fs w) (w_fs w') /\
  forall cbs errs, r = Ok (cbs, errs) ->
    (forall p, In p cbs -> exists st, In st l /\ s_input st = IFile p /\ done d (w_fs w) (w_fs w') st) /\
    (errs = [] -> forall st, In st l -> done d (w_fs w) (w_fs w') st).
Proof.
  revert k. induction l as [|st l IH]; intros k w r w' H W O S D.
  { destruct H as [-> ->]. assert (K : outputs_only [] (w_fs w) (w_fs w)) by (split; [exact W|]; split; [intros; apply intact_refl|intros st p s q t []]).
    split; [auto|]. split; [exact K|]. intros cbs errs [= <- <-]. split; [intros p []|intros _ st []]. }
  cbn [process] in H. destruct (in_order_cases _ _ (O st (or_introl eq_refl))) as (Fi & No & [(p & s & q & t & Ei & Es & Eo & Et & Os & Ot)|Id]).
  2:{ assert (U : forall f g, outputs_only l f g -> outputs_only (st :: l) f g).
      { intros f g (A & B & C). split; [exact A|]. split.
        - intros u Nu. apply B. intros (a & q & I & X). apply Nu. exists a, q. split; [right; exact I|exact X].
        - intros a p s q t [<-|I] Ei Es Eo Et; [destruct (Id p s q t Ei Es Eo Et)|]. exact (C a p s q t I Ei Es Eo Et). }
      assert (R : outputs_only (st :: l) (w_fs w) (w_fs w)).
      { split; [exact W|]. split; [intros; apply intact_refl|]. intros a p s q t I Ei Es Eo Et. split; [exact (proj2 (proj2 (proj2 (O a I)) p s q t Ei Es Eo Et))|intros _; apply intact_refl]. }
      destruct (distinct_cons _ _ D) as [D' _]. pose proof (separate_cons _ _ S) as S'.
      destruct H as [([c0 e0] & w1 & H1 & H)|[(e & H1 & ->)|(H1 & ->)]]; destruct (step_idle _ _ _ _ _ _ H1 Fi No Id) as (Q1 & K1).
      2,3: rewrite (moments_same _ _ Q1), (proj1 Q1); split; [auto|]; split; [exact R|discriminate].
      destruct H as [(u & w2 & H2 & H)|[(e & H2 & ->)|(H2 & ->)]]; apply quiet_ui in H2; pose proof (same_trans _ _ _ Q1 H2) as Q.
      2,3: rewrite (moments_same _ _ Q), (proj1 Q); split; [auto|]; split; [exact R|discriminate].
      assert (HP : forall r3 w3, process entry_of lib (Datatypes.S k) n l force d w2 r3 w3 ->
        (forall g, In g (moments w3) -> In g (moments w) \/ outputs_only (st :: l) (w_fs w) g) /\ outputs_only (st :: l) (w_fs w) (w_fs w3) /\
        forall cbs errs, r3 = Ok (cbs, errs) -> forall p, In p cbs -> exists st, In st l /\ s_input st = IFile p /\ done d (w_fs w) (w_fs w3) st).
      { intros r3 w3 H3. destruct (IH _ _ _ _ H3) as (M3 & F3 & K3); [rewrite (proj1 Q); exact W|rewrite (proj1 Q); intros a I; apply O; right; exact I|exact S'|exact D'|].
        rewrite (proj1 Q) in M3, F3, K3. rewrite (moments_same _ _ Q) in M3. split; [|split; [apply U, F3|intros cbs errs E; exact (proj1 (K3 _ _ E))]].
        intros g Ig. destruct (M3 g Ig); auto. }
      destruct H as [([c1 e1] & w3 & H3 & H)|[(e & H3 & ->)|(H3 & ->)]]; destruct (HP _ _ H3) as (A & B & C); [|split; [exact A|]; split; [exact B|discriminate]..].
      destruct H as [-> ->]. split; [exact A|]. split; [exact B|]. intros cbs errs [= <- <-]. destruct K1 as [K1|(e & K1)]; [discriminate K1|injection K1 as -> ->]. cbn [app]. split; [|discriminate].
      intros p Ip. destruct (C _ _ eq_refl p Ip) as (a & I & X). exists a. split; [right; exact I|exact X]. }
  assert (Ns : s <> t). { intros ->. exact (S st st p q t (or_introl eq_refl) (or_introl eq_refl) Ei Eo Es Et). }
  destruct (distinct_cons _ _ D) as [D' Dt]. specialize (Dt q t Eo Et).
  assert (G1 : forall g, only t (w_fs w) g -> (f_entries (w_fs w) s = None -> intact (w_fs w) g t) -> outputs_only (st :: l) (w_fs w) g).
  { intros g (A & B & C) N. split; [exact A|]. split.
    - intros u Nu. apply C. intros ->. apply Nu. exists st, q. split; [left; reflexivity|]. auto.
    - intros a p1 s1 q1 t1 [<-|I] Ei1 Es1 Eo1 Et1.
      + assert (t1 = t) by congruence. assert (s1 = s) by congruence. subst t1 s1. auto.
      + assert (t1 <> t). { intros ->. apply Dt. exists a, q1. auto. }
        destruct (proj2 (proj2 (O a (or_intror I))) p1 s1 q1 t1 Ei1 Es1 Eo1 Et1) as [Os2 Ot2].
        pose proof (C t1 H0) as K. split; [eapply intact_ordinary; eassumption|auto]. }
  assert (HS : forall r1 w1, step entry_of lib k n st force d w r1 w1 ->
    (forall g, In g (moments w1) -> In g (moments w) \/ outputs_only (st :: l) (w_fs w) g) /\ outputs_only (st :: l) (w_fs w) (w_fs w1) /\ only t (w_fs w) (w_fs w1) /\
    (f_entries (w_fs w) s = None -> same_files w w1) /\
    (r1 = Panic \/ (r1 = Ok ([p], []) /\ exists b, plain_file (w_fs w) s b /\ has_conversion entry_of lib d b (w_fs w1) q) \/ exists e, r1 = Ok ([], [e]))).
  { intros r1 w1 H1. destruct (step_over _ _ _ _ _ _ _ _ _ _ H1 Ei Es Eo Et Ns W Os Ot) as (A & B & C & E). split; [|split; [|auto]].
    - intros g Ig. destruct (f_entries (w_fs w) s) eqn:F.
      + destruct (A g Ig) as [I|I]; [auto|]. right. apply G1; [exact I|congruence].
      + left. rewrite (moments_same _ _ (C eq_refl)) in Ig. exact Ig.
    - apply G1; [exact B|]. intros F. rewrite (proj1 (C F)). apply intact_refl. }
  destruct H as [([c0 e0] & w1 & H1 & H)|[(e & H1 & ->)|(H1 & ->)]]; destruct (HS _ _ H1) as (M1 & F1 & T1 & N1 & K1); clear HS.
  2,3: split; [exact M1|]; split; [exact F1|discriminate].
  destruct H as [(u & w2 & H2 & H)|[(e & H2 & ->)|(H2 & ->)]]; apply quiet_ui in H2.
  2,3: rewrite (moments_same _ _ H2), (proj1 H2); split; [exact M1|]; split; [exact F1|discriminate].
  assert (HP : forall r3 w3, process entry_of lib (Datatypes.S k) n l force d w2 r3 w3 ->
    (forall g, In g (moments w3) -> In g (moments w) \/ outputs_only (st :: l) (w_fs w) g) /\ outputs_only (st :: l) (w_fs w) (w_fs w3) /\ intact (w_fs w1) (w_fs w3) t /\
    (forall u, ~ is_output entry_of (st :: l) u -> intact (w_fs w) (w_fs w1) u) /\
    forall cbs errs, r3 = Ok (cbs, errs) ->
      (forall p, In p cbs -> exists st, In st l /\ s_input st = IFile p /\ done d (w_fs w1) (w_fs w3) st) /\
      (errs = [] -> forall st, In st l -> done d (w_fs w1) (w_fs w3) st)).
  { intros r3 w3 H3. destruct (IH _ _ _ _ H3) as (M3 & F3 & K3); [rewrite (proj1 H2); apply F1| |eapply separate_cons, S|exact D'|].
    { intros a I. rewrite (proj1 H2). destruct (O a (or_intror I)) as (Fi1 & No1 & O1). split; [exact Fi1|]. split; [exact No1|]. intros p1 s1 q1 t1 Ei1 Es1 Eo1 Et1.
      destruct (O1 p1 s1 q1 t1 Ei1 Es1 Eo1 Et1) as [Os1 Ot1]. destruct T1 as (_ & _ & C). split; (eapply intact_ordinary; [apply C|assumption]).
      - intros ->. exact (S a st p1 q t (or_intror I) (or_introl eq_refl) Ei1 Eo Es1 Et).
      - intros ->. apply Dt. exists a, q1. auto. }
    rewrite (proj1 H2) in M3, F3, K3. rewrite (moments_same _ _ H2) in M3.
    assert (U : forall g, outputs_only l (w_fs w1) g -> outputs_only (st :: l) (w_fs w) g).
    { intros g (A & B & C). split; [exact A|]. split.
      - intros v Nu. eapply intact_step; [apply (proj1 (proj2 F1)), Nu|]. apply B. intros (a & q1 & I & X). apply Nu. exists a, q1. split; [right; exact I|exact X].
      - intros a p1 s1 q1 t1 [<-|I] Ei1 Es1 Eo1 Et1.
        + assert (t1 = t) by congruence. assert (s1 = s) by congruence. subst t1 s1. pose proof (B t Dt) as Kt. split; [eapply intact_ordinary; [exact Kt|apply T1]|].
          intros Nn. rewrite (proj1 (N1 Nn)) in Kt. exact Kt.
        + destruct (C a p1 s1 q1 t1 I Ei1 Es1 Eo1 Et1) as [C1 C2]. split; [exact C1|]. intros Nn. destruct T1 as (_ & _ & T1).
          eapply intact_step; [apply T1|apply C2].
          * intros ->. apply Dt. exists a, q1. auto.
          * rewrite (proj1 (T1 s1 ltac:(intros ->; exact (S a st p1 q t (or_intror I) (or_introl eq_refl) Ei1 Eo Es1 Et)))). exact Nn. }
    split; [|split; [apply U, F3|split; [apply (proj1 (proj2 F3)), Dt|split; [apply (proj1 (proj2 F1))|exact K3]]]].
    intros g Ig. destruct (M3 g Ig) as [I|I]; [apply M1, I|right; apply U, I]. }
  assert (Back : forall g a, In a l -> done d (w_fs w1) g a -> done d (w_fs w) g a).
  { intros g a I (s1 & q1 & b1 & Cv & Pb & Hc). exists s1, q1, b1. split; [exact Cv|]. split; [|exact Hc]. destruct Cv as (p1 & Ei1 & Es1 & Eo1).
    assert (Dn : s1 <> t) by (intros ->; exact (S a st p1 q t (or_intror I) (or_introl eq_refl) Ei1 Eo Es1 Et)).
    pose proof Hc as (t1 & _ & Et1 & _).
    destruct T1 as (_ & _ & T1). destruct (proj2 (proj2 (O a (or_intror I))) p1 s1 q1 t1 Ei1 Es1 Eo1 Et1) as [Os2 _].
    destruct Os2 as [Os2|(b2 & Os2)]; [exfalso; destruct Pb as (j & X & _); pose proof (proj1 (T1 s1 Dn)); congruence|].
    pose proof (intact_plain _ _ _ _ (T1 s1 Dn) Os2) as P2. destruct Pb as (j & X1 & X2), P2 as (j2 & Y1 & Y2). assert (j2 = j) by congruence. subst j2.
    assert (b2 = b1) by congruence. subst b2. exact Os2. }
  destruct H as [([c1 e1] & w3 & H3 & H)|[(e & H3 & ->)|(H3 & ->)]]; destruct (HP _ _ H3) as (A & B & C & E & F); [|split; [exact A|]; split; [exact B|discriminate]..].
  destruct H as [-> ->]. do 2 (split; [assumption|]). intros cbs errs [= <- <-]. destruct (F _ _ eq_refl) as [F2 F3].
  assert (Here : forall b, plain_file (w_fs w) s b -> has_conversion entry_of lib d b (w_fs w1) q -> done d (w_fs w) (w_fs w3) st).
  { intros b Pb Hc. exists s, q, b. split; [exists p; auto|]. split; [exact Pb|]. eapply conversion_intact; eassumption. }
  destruct K1 as [K1|[(K1 & b & Pb & Hc)|(e & K1)]]; [discriminate K1|injection K1 as -> ->|injection K1 as -> ->]; cbn [app]; split.
  - intros p1 [<-|I]; [exists st; split; [left; reflexivity|]; split; [exact Ei|eauto]|]. destruct (F2 p1 I) as (a & I1 & I2 & I3). exists a. split; [right; exact I1|]. split; [exact I2|apply Back; assumption].
  - intros En a [<-|I]; [eauto|]. apply Back; auto.
  - intros p1 I. destruct (F2 p1 I) as (a & I1 & I2 & I3). exists a. split; [right; exact I1|]. split; [exact I2|apply Back; assumption].
  - discriminate.
Qed.

(** ** The command *)

Definition run_leaves (l : list io_stream) (policy : cleanup_policy) (d : direction_opts) (w w' : world) (g : fs) : Prop :=
  wf_fs g /\
  (forall u, ~ is_output entry_of l u -> intact (w_fs w) g u \/
     (deletion_requested policy w w' /\ f_entries g u = None /\ exists st q b, In st l /\ converts entry_of st u q /\ plain_file (w_fs w) u b /\ has_conversion entry_of lib d b g q)) /\
  (forall st p s q t, In st l -> s_input st = IFile p -> entry_of p = Some s -> s_output st = Ok (OFile q) -> entry_of q = Some t ->
     ordinary g t /\ (f_entries (w_fs w) s = None -> intact (w_fs w) g t)).

Lemma crypt_over l policy force d w r w' : crypt_streams entry_of lib l policy force d w r w' ->
  wf_fs (w_fs w) -> (forall st, In st l -> in_order entry_of (w_fs w) st) -> separate entry_of l -> distinct_outputs entry_of l ->
  (forall g, In g (moments w') -> In g (moments w) \/ run_leaves l policy d w w' g) /\ run_leaves l policy d w w' (w_fs w') /\
  (r = Ok tt -> forall st, In st l -> done d (w_fs w) (w_fs w') st).
Proof.
  intros H W O S D. destruct (crypt_inv _ _ _ _ _ _ _ _ _ H) as (rp & w1 & Hp & K). destruct (process_over _ _ _ _ _ _ Hp W O S D) as (M & F & C).
  assert (U : forall g, outputs_only l (w_fs w) g -> run_leaves l policy d w w' g).
  { intros g (A & B & E). split; [exact A|]. split; [intros u Nu; left; apply B, Nu|exact E]. }
  assert (MU : forall g, In g (moments w1) -> In g (moments w) \/ run_leaves l policy d w w' g) by (intros g Ig; destruct (M g Ig); auto).
  destruct K as [(e & -> & -> & ->)|[(-> & -> & ->)|(cbs & errs & -> & [(Q & Er)|(w2 & Q & Hr & Dq & Er)])]].
  - split; [exact MU|]. split; [apply U, F|discriminate].
  - split; [exact MU|]. split; [apply U, F|discriminate].
  - rewrite (moments_same _ _ Q), (proj1 Q). split; [exact MU|]. split; [apply U, F|]. intros ->. apply (C _ _ eq_refl).
    destruct Er as [Er|(_ & e & _ & Er)]; [|discriminate Er]. destruct errs; [reflexivity|discriminate Er].
  - destruct (C _ _ eq_refl) as [C1 C2].
    assert (Cd : forall s, In s (entries entry_of cbs) -> exists b, plain_file (w_fs w1) s b).
    { intros s Is. apply in_entries in Is as (p & Ip & Es). destruct (C1 p Ip) as (st & I & Ei & s1 & q & b & (p1 & Ei1 & Es1 & Eo) & Pb & _).
      assert (s1 = s) by congruence. subst s1. exists b. eapply intact_plain; [|exact Pb]. apply (proj1 (proj2 F)).
      intros (a & q' & Ia & Ea & Et). assert (p1 = p) by congruence. subst p1. exact (S st a p q' s I Ia Ei Ea Es Et). }
    assert (Fo : forall u, is_output entry_of l u -> ~ In u (entries entry_of cbs)).
    { intros u (a & q & Ia & Ea & Et) Is. apply in_entries in Is as (p & Ip & Es). destruct (C1 p Ip) as (st & I & Ei & _). exact (S st a p q u I Ia Ei Ea Es Et). }
    destruct (remove_all_spec entry_of force (entries entry_of cbs) (w_fs w1) Cd cbs w2 (Ok tt) w') as (_ & R & W' & Mr & _).
    + intros p s Ip Es. apply in_entries. eauto.
    + exact Hr.
    + rewrite (proj1 Q). apply F.
    + rewrite (proj1 Q). apply removed_refl.
    + assert (V : forall g, removed (entries entry_of cbs) (w_fs w1) g -> wf_fs g -> run_leaves l policy d w w' g /\ forall t, is_output entry_of l t -> intact (w_fs w1) g t).
      { intros g [R1 R2] Wg.
        assert (Ot : forall t, is_output entry_of l t -> intact (w_fs w1) g t) by (intros t It; destruct (R1 t) as [X|[X _]]; [exact X|destruct (Fo t It X)]).
        split; [|exact Ot]. destruct F as (F1 & F2 & F3). split; [exact Wg|]. split.
        - intros u Nu. destruct (R1 u) as [X|[X Y]]; [left; eapply intact_step; [apply F2, Nu|exact X]|]. right. split; [exact Dq|]. split; [exact Y|].
          apply in_entries in X as (p & Ip & Es). destruct (C1 p Ip) as (st & I & Ei & s1 & q & b & Cv & Pb & Hc). pose proof Cv as (p1 & Ei1 & Es1 & Eo).
          assert (s1 = u) by congruence. subst s1. exists st, q, b. split; [exact I|]. split; [exact Cv|]. split; [exact Pb|].
          pose proof Hc as (t & _ & Et & _). eapply conversion_intact; [exact Et| |exact Hc]. apply Ot. exists st, q. auto.
        - intros st p s q t I Ei Es Eo Et. destruct (F3 st p s q t I Ei Es Eo Et) as [A B]. assert (It : is_output entry_of l t) by (exists st, q; auto).
          split; [eapply intact_ordinary; [apply Ot, It|exact A]|]. intros Nn. eapply intact_step; [apply B, Nn|apply Ot, It]. }
      assert (Wm : forall g, In g (moments w') -> In g (moments w1) \/ (removed (entries entry_of cbs) (w_fs w1) g /\ wf_fs g)).
      { clear - Hr Q Cd F. revert Hr. assert (R0 : removed (entries entry_of cbs) (w_fs w1) (w_fs w2)) by (rewrite (proj1 Q); apply removed_refl).
        assert (W0 : wf_fs (w_fs w2)) by (rewrite (proj1 Q); apply F).
        assert (M0 : forall g, In g (moments w2) -> In g (moments w1) \/ (removed (entries entry_of cbs) (w_fs w1) g /\ wf_fs g)) by (rewrite (moments_same _ _ Q); auto).
        assert (Ic : forall p s, In p cbs -> entry_of p = Some s -> In s (entries entry_of cbs)) by (intros p s Ip Es; apply in_entries; eauto).
        revert Cd R0 Ic M0. generalize (entries entry_of cbs). intros L Cd R0 Ic M0 Hr. clear Q F. revert w2 R0 W0 M0 Hr. induction cbs as [|p cbs IH]; intros w2 R0 W0 M0 Hr.
        - destruct Hr as [_ ->]. exact M0.
        - cbn [remove_all] in Hr. destruct Hr as [(u & w3 & H1 & H)|[(e & _ & E)|(_ & E)]]; [|discriminate E..].
          destruct (remove_all_spec entry_of force L (w_fs w1) Cd [p] w2 (Ok tt) w3) as (_ & R1 & W1 & Mr & _); [intros p' s [<-|[]]; apply Ic; left; reflexivity| |exact W0|exact R0|].
          { left. exists u, w3. split; [exact H1|split; reflexivity]. }
          apply (IH (fun p' s I => Ic p' s (or_intror I)) w3 R1 W1); [|exact H]. intros g Ig.
          pose proof (remove_cb_spec _ _ _ _ _ _ H1) as (_ & [(Q & _)|(s & _ & _ & _ & [(A & B & _)|(A & B & _)])]).
          + rewrite (moments_same _ _ Q) in Ig. auto.
          + assert (Em : moments w3 = moments w2) by (unfold moments; congruence). rewrite Em in Ig. auto.
          + unfold moments in Ig. rewrite B in Ig. destruct Ig as [<-|Ig]; [auto|]. auto. }
      split; [|split; [apply V; assumption|]].
      * intros g Ig. destruct (Wm g Ig) as [I|[I Wg]]; [apply MU, I|right; apply V; assumption].
      * intros Er' st I. assert (En : errs = []) by (rewrite Er' in Er; destruct errs; [reflexivity|discriminate Er]).
        destruct (C2 En st I) as (s & q & b & Cv & Pb & Hc). exists s, q, b. split; [exact Cv|]. split; [exact Pb|]. destruct Cv as (p & Ei & Es & Eo).
        pose proof Hc as (t & _ & Et & _). eapply conversion_intact; [exact Et| |exact Hc]. apply (proj2 (V _ R W')). exists st, q. auto.
Qed.

(** ** Attempts *)

(** What holds after every attempt. *)
Record still (streams : list io_stream) (d : direction_opts) (f g : fs) : Prop := mkStill {
  s_wf : wf_fs g;
  s_order : forall st, In st streams -> in_order entry_of g st;
  s_inputs : forall st p s b, In st streams -> s_input st = IFile p -> entry_of p = Some s -> plain_file f s b ->
    plain_file g s b \/ (f_entries g s = None /\ has_been_converted entry_of lib streams d s b g);
  s_others : forall u, ~ is_output entry_of streams u -> (forall st p, In st streams -> s_input st = IFile p -> entry_of p <> Some u) -> intact f g u
}.
Lemma separate_incl l m : incl l m -> separate entry_of m -> separate entry_of l.
Proof. intros I S a a' p q s Ia Ia'. apply S; apply I; assumption. Qed.

Lemma still_run streams d f l policy force w r w' g : still streams d f (w_fs w) -> incl l streams -> separate entry_of streams -> distinct_outputs entry_of streams ->
  distinct_outputs entry_of l -> crypt_streams entry_of lib l policy force d w r w' -> run_leaves l policy d w w' g -> still streams d f g.
Proof.
  intros [W O Si So] I S Ds Dl H (Wg & A & B). pose proof (separate_incl _ _ I S) as Sl.
  assert (Io : forall u, is_output entry_of l u -> is_output entry_of streams u) by (intros u (a & q & Ia & X); exists a, q; auto).
  assert (Nin : forall st p s, In st streams -> s_input st = IFile p -> entry_of p = Some s -> ~ is_output entry_of streams s).
  { intros st p s Is Ei Es (a & q & Ia & Eo & Et). exact (S st a p q s Is Ia Ei Eo Es Et). }
  (* an output of the streams *)
  assert (Out : forall st p s q t, In st streams -> s_input st = IFile p -> entry_of p = Some s -> s_output st = Ok (OFile q) -> entry_of q = Some t ->
    ordinary g t /\ (f_entries (w_fs w) s = None -> intact (w_fs w) g t)).
  { intros st p s q t Is Ei Es Eo Et. destruct (proj2 (proj2 (O st Is)) p s q t Ei Es Eo Et) as [Os1 Ot1].
    assert (Dec : is_output entry_of l t \/ ~ is_output entry_of l t).
    { clear. induction l as [|a l IH]; [right; intros (x & y & [] & _)|]. destruct IH as [(x & y & Ix & Z)|IH]; [left; exists x, y; split; [right; exact Ix|exact Z]|].
      destruct (s_output a) as [[qa|]|e|] eqn:Ea.
      2,3,4: right; intros (x & y & [<-|Ix] & Z1 & Z2); [congruence|apply IH; exists x, y; auto].
      destruct (entry_of qa) as [ta|] eqn:Eta; [destruct (N.eq_dec ta t) as [->|Dn]|].
      - left. exists a, qa. split; [left; reflexivity|]. auto.
      - right. intros (x & y & [<-|Ix] & Z1 & Z2); [congruence|apply IH; exists x, y; auto].
      - right. intros (x & y & [<-|Ix] & Z1 & Z2); [congruence|apply IH; exists x, y; auto]. }
    destruct Dec as [(a & qa & Ia & Ea & Eta)|Dn].
    - assert (a = st) by (eapply (distinct_same streams); [exact Ds|apply I, Ia|exact Is|exact Ea|exact Eo|exact Eta|exact Et]). subst a. exact (B st p s q t Ia Ei Es Eo Et).
    - assert (K : intact (w_fs w) g t).
      { destruct (A t Dn) as [K|(_ & _ & a & qa & b & Ia & (pa & Eia & Esa & _) & _)]; [exact K|]. exfalso. apply (Nin a pa t (I a Ia) Eia Esa). exists st, q. auto. }
      split; [eapply intact_ordinary; eassumption|auto]. }
  (* an input of the streams *)
  assert (Inp : forall st p s b, In st streams -> s_input st = IFile p -> entry_of p = Some s -> plain_file (w_fs w) s b ->
    plain_file g s b \/ (f_entries g s = None /\ has_been_converted entry_of lib streams d s b g)).
  { intros st p s b Is Ei Es Pb. destruct (A s) as [K|(_ & Nn & a & qa & b' & Ia & Cv & Pb' & Hc)]; [intros X; exact (Nin st p s Is Ei Es (Io s X))| |].
    - left. eapply intact_plain; eassumption.
    - right. split; [exact Nn|]. assert (b' = b).
      { destruct Pb as (j & X1 & X2), Pb' as (j' & Y1 & Y2). assert (j' = j) by congruence. subst j'. congruence. }
      subst b'. exists a, qa. split; [apply I, Ia|]. auto. }
  constructor; [exact Wg| | |].
  - intros st Is. destruct (O st Is) as (Fi & No & O1). split; [exact Fi|]. split; [exact No|]. intros p s q t Ei Es Eo Et. destruct (O1 p s q t Ei Es Eo Et) as [Os Ot].
    split; [|eapply Out; eassumption].
    destruct Os as [Nn|(b & Pb)].
    + destruct (A s) as [K|(_ & Nn' & _)]; [intros X; exact (Nin st p s Is Ei Es (Io s X))|left; rewrite (proj1 K); exact Nn|left; exact Nn'].
    + destruct (Inp st p s b Is Ei Es Pb) as [K|[K _]]; [right; eauto|left; exact K].
  - intros st p s b Is Ei Es Pf. destruct (Si st p s b Is Ei Es Pf) as [Pb|[Nn (a & qa & Ia & Cv & Hc)]]; [eapply Inp; eassumption|]. right. split.
    + destruct (A s) as [K|(_ & Nn' & _)]; [intros X; exact (Nin st p s Is Ei Es (Io s X))|rewrite (proj1 K); exact Nn|exact Nn'].
    + exists a, qa. split; [exact Ia|]. split; [exact Cv|]. pose proof Hc as (t & _ & Et & _). destruct Cv as (pa & Eia & Esa & Eoa).
      eapply conversion_intact; [exact Et| |exact Hc]. eapply Out; eassumption.
  - intros u No Ni. destruct (A u) as [K|(_ & _ & a & qa & b & Ia & (pa & Eia & Esa & _) & _)]; [intros X; exact (No (Io u X))| |].
    + eapply intact_step; [apply So; assumption|exact K].
    + destruct (Ni a pa (I a Ia) Eia Esa).
Qed.

Lemma attempts_still streams d f g : attempts entry_of lib streams d f g -> wf_fs f -> (forall st, In st streams -> in_order entry_of f st) ->
  separate entry_of streams -> distinct_outputs entry_of streams -> still streams d f g.
Proof.
  intros H W O S D. induction H as [|l policy force w r w' g H IH P I Dl Hr Ig].
  - constructor; [exact W|exact O|auto|]. intros; apply intact_refl.
  - destruct (crypt_over _ _ _ _ _ _ _ Hr) as (M & _ & _); [apply IH|intros st Is; apply IH, I, Is|eapply separate_incl; eassumption|exact Dl|].
    destruct (M g Ig) as [K|K]; [unfold moments in K; rewrite P in K; destruct K as [<-|[]]; exact IH|]. eapply still_run; eassumption.
Qed.
End WithEnvironment.

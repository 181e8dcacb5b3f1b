(** Proofs about the file system model. *)
From Coq.Strings Require Import Byte String.
From Coq Require Import List NArith ZArith Bool PeanoNat Lia.
From Verif Require Import Base BaseFacts Shamir Errors Io HeaderIoSpec StreamSpec Text Util CliErrors Crypto HeaderCrypto CredSpec FileCrypto Ui UiSpec Paths Cli Fs Commands FsSpec.
Import ListNotations.
Local Open Scope N_scope.

(** ** Computations that do not touch files *)

Definition same_files (w w' : world) : Prop := w_fs w' = w_fs w /\ w_past w' = w_past w /\ w_refused w' = w_refused w.
Definition quiet {A} (m : io A) : Prop := forall w r w', m w r w' -> same_files w w'.

Lemma same_refl w : same_files w w.
Proof. repeat split. Qed.
Lemma same_trans w1 w2 w3 : same_files w1 w2 -> same_files w2 w3 -> same_files w1 w3.
Proof. intros (A & B & C) (D & E & F). repeat split; congruence. Qed.
Lemma same_ui w u : same_files w (set_ui w u).
Proof. repeat split. Qed.
Lemma quiet_ret {A} (a : A) : quiet (io_ret a).
Proof. intros w r w' [_ ->]. apply same_refl. Qed.
Lemma quiet_lift {A} (x : outcome cerr A) : quiet (io_lift x).
Proof. intros w r w' [_ ->]. apply same_refl. Qed.
Lemma quiet_ui {A} (m : act A) : quiet (io_ui m).
Proof. intros w r w' [_ ->]. apply same_ui. Qed.
Lemma quiet_bind {A B} (m : io A) (f : A -> io B) : quiet m -> (forall a, quiet (f a)) -> quiet (io_bind m f).
Proof.
  intros M F w r w' [(a & w1 & H1 & H2)|[(e & H & _)|(H & _)]]; [|eapply M, H..]. eapply same_trans; [eapply M, H1|eapply F, H2].
Qed.
Lemma quiet_try {A} (m : io A) : quiet m -> quiet (io_try m).
Proof. intros M w r w' [(x & _ & H & _)|(H & _)]; eapply M, H. Qed.

(** Inversion of sequences. *)
Lemma bind_ok_inv {A B} (m : io A) (f : A -> io B) w b w' : io_bind m f w (Ok b) w' -> exists a w1, m w (Ok a) w1 /\ f a w1 (Ok b) w'.
Proof. intros [H|[(e & _ & H)|(_ & H)]]; [exact H|discriminate H..]. Qed.

Section WithEnvironment.
Variable entry_of : names.
Variable lib : crypto_lib.

Lemma quiet_open_read p : quiet (open_read entry_of p).
Proof. intros w r w' [-> _]. apply same_refl. Qed.
Lemma quiet_metadata p : quiet (symlink_metadata entry_of p).
Proof. intros w r w' [-> _]. apply same_refl. Qed.
Lemma quiet_open_file p : quiet (open_file entry_of p).
Proof.
  apply quiet_bind; [apply quiet_open_read|]. intros rd. apply quiet_bind; [apply quiet_metadata|]. intros md.
  apply quiet_bind; [apply quiet_lift|]. intros _. apply quiet_ret.
Qed.
Lemma quiet_open_input i force : quiet (open_input entry_of i force).
Proof.
  destruct i as [p|p|]; cbn [open_input].
  - apply quiet_bind; [apply quiet_open_file|]. intros [rd md]. do 3 (apply quiet_bind; [apply quiet_lift|]; intros _). apply quiet_ret.
  - apply quiet_bind; [apply quiet_open_file|]. intros [rd md]. apply quiet_ret.
  - intros w r w' H. unfold open_stdin in H. destruct (u_input (w_ui w)); destruct H as [_ ->]; repeat split.
Qed.

(** ** Opening *)

Lemma open_file_ok p w rd md w' : open_file entry_of p w (Ok (rd, md)) w' ->
  exists s, entry_of p = Some s /\ metadata_of (w_fs w) s = Some md /\ m_type md <> FDirectory /\
    (forall i, f_entries (w_fs w) s = Some (EFile i) -> rd = ReadNode i).
Proof.
  intros H. apply bind_ok_inv in H as (rd' & w1 & [-> H1] & H). apply bind_ok_inv in H as (md' & w2 & [-> H2] & H).
  apply bind_ok_inv in H as (x & w3 & [H3 ->] & H). destruct H as [E _]. injection E as <- <-.
  destruct H2 as [[E _]|(s & md2 & Es & Em & E)]; [discriminate E|]. injection E as <-. exists s. split; [exact Es|]. split; [exact Em|]. split.
  - intros E. rewrite E in H3. discriminate H3.
  - intros i Ei. destruct H1 as [[E _]|(s1 & t & Es1 & Ef & K)]; [discriminate E|]. assert (s1 = s) by congruence. subst s1.
    unfold max_links in Ef. cbn [follow] in Ef. rewrite Ei in Ef. injection Ef as <-. destruct K as [(j & Ej & E)|[Ed _]]; [|congruence].
    assert (j = i) by congruence. subst j. congruence.
Qed.

(** Without force only plain files are opened. *)
Lemma open_input_file p w rd w' : open_input entry_of (IFile p) false w (Ok rd) w' ->
  exists s i b, entry_of p = Some s /\ f_entries (w_fs w) s = Some (EFile i) /\ f_nodes (w_fs w) i = Some (mkNode true b 1) /\ rd = ReadNode i.
Proof.
  intros H. cbn [open_input] in H. apply bind_ok_inv in H as ([rd' md] & w1 & H1 & H).
  apply bind_ok_inv in H as (x & w2 & [H2 _] & H). apply bind_ok_inv in H as (x' & w3 & [H3 _] & H). apply bind_ok_inv in H as (x'' & w4 & [H4 _] & H).
  destruct H as [E _]. injection E as <-. destruct (open_file_ok _ _ _ _ _ H1) as (s & Es & Em & _ & Hr).
  unfold ensure in H3, H4. cbn [orb] in H3, H4. destruct (N.eqb_spec (m_nlink md) 1) as [El|]; [|discriminate H3].
  destruct (m_type md) eqn:Et; try discriminate H4. unfold metadata_of in Em.
  destruct (f_entries (w_fs w) s) as [[i|t|]|] eqn:Ei; try discriminate Em; try (injection Em as <-; discriminate Et).
  destruct (f_nodes (w_fs w) i) as [n|] eqn:En; [|discriminate Em]. injection Em as <-. cbn [m_type m_nlink] in *.
  destruct n as [reg b l]. cbn [n_regular n_links] in *. destruct reg; [|discriminate Et]. subst l. exists s, i, b. auto.
Qed.

(** A directory is never opened. *)
Lemma open_input_dir p force w rd w' s : entry_of p = Some s -> f_entries (w_fs w) s = Some EDir ->
  ~ open_input entry_of (IFile p) force w (Ok rd) w' /\ ~ open_input entry_of (IFileStream p) force w (Ok rd) w'.
Proof.
  intros Es Ed.
  assert (K : forall w1 rd' md, ~ open_file entry_of p w (Ok (rd', md)) w1).
  { intros w1 rd' md H. destruct (open_file_ok _ _ _ _ _ H) as (s' & Es' & Em & Nd & _). assert (s' = s) by congruence. subst s'.
    unfold metadata_of in Em. rewrite Ed in Em. injection Em as <-. contradiction Nd; reflexivity. }
  split; intros H; cbn [open_input] in H; apply bind_ok_inv in H as ([rd' md] & w1 & H1 & _); eapply K, H1.
Qed.

(** ** File systems *)

Definition fs_eq (f g : fs) : Prop := (forall s, f_entries g s = f_entries f s) /\ (forall i, f_nodes g i = f_nodes f i).
Definition fresh (f : fs) (t i : N) : Prop := f_entries f t = None /\ f_nodes f i = None /\ forall s, f_entries f s <> Some (EFile i).
(** [g] is [f] with a new file. *)
Definition created (f : fs) (t i : N) (out : bytes) (g : fs) : Prop :=
  (forall s, f_entries g s = if s =? t then Some (EFile i) else f_entries f s) /\
  (forall j, f_nodes g j = if j =? i then Some (mkNode true out 1) else f_nodes f j).
(** Everything that exists in [f] is the same in [g]. *)
Definition extends (f g : fs) : Prop := forall s, f_entries f s <> None -> intact f g s.

Lemma extends_refl f : extends f f.
Proof. intros s _. split; auto. Qed.
Lemma extends_trans f g h : extends f g -> extends g h -> extends f h.
Proof.
  intros A B s N. destruct (A s N) as [A1 A2]. destruct (B s) as [B1 B2]; [congruence|]. split; [congruence|].
  intros i E. rewrite <- (A2 i E). apply B2. congruence.
Qed.
Lemma fs_eq_extends f g : fs_eq f g -> extends f g.
Proof. intros [A B] s _. split; auto. Qed.
Lemma fs_eq_wf f g : fs_eq f g -> wf_fs f -> wf_fs g.
Proof.
  intros [A B] [W1 W2]. split.
  - intros s i. rewrite A, B. apply W1.
  - intros s t i n. rewrite !A, B. apply W2.
Qed.
Lemma created_extends f t i out g : fresh f t i -> created f t i out g -> extends f g.
Proof.
  intros (F1 & F2 & F3) [A B] s N. split.
  - rewrite A. destruct (N.eqb_spec s t) as [->|]; [contradiction N|reflexivity].
  - intros j E. rewrite B. destruct (N.eqb_spec j i) as [->|]; [exfalso; eapply F3, E|reflexivity].
Qed.
Lemma created_wf f t i out g : fresh f t i -> created f t i out g -> wf_fs f -> wf_fs g.
Proof.
  intros (F1 & F2 & F3) [A B] [W1 W2]. split.
  - intros s j. rewrite A, B. destruct (N.eqb_spec s t) as [->|].
    + intros [= ->]. rewrite N.eqb_refl. eexists. split; [reflexivity|]. cbn. lia.
    + intros E. destruct (N.eqb_spec j i) as [->|]; [exfalso; eapply F3, E|]. eapply W1, E.
  - intros s u j n. rewrite !A, B. destruct (N.eqb_spec s t) as [->|]; destruct (N.eqb_spec u t) as [->|]; intros E1 E2 D.
    + contradiction D; reflexivity.
    + injection E1 as ->. exfalso. eapply F3, E2.
    + injection E2 as ->. exfalso. eapply F3, E1.
    + destruct (N.eqb_spec j i) as [->|]; [exfalso; eapply F3, E1|]. intros En. exact (W2 s u j n E1 E2 D En).
Qed.
Lemma created_plain f t i out g : created f t i out g -> plain_file g t out.
Proof. intros [A B]. exists i. rewrite A, B, !N.eqb_refl. auto. Qed.
Lemma created_unlink f t i out g : fresh f t i -> created f t i out g -> fs_eq f (unlink g t).
Proof.
  intros (F1 & F2 & F3) [A B]. assert (Et : f_entries g t = Some (EFile i)) by (rewrite A, N.eqb_refl; reflexivity).
  assert (Ei : f_nodes g i = Some (mkNode true out 1)) by (rewrite B, N.eqb_refl; reflexivity).
  unfold unlink. rewrite Et, Ei. cbn [n_links]. change (1 <=? 1) with true. cbn [f_entries f_nodes]. unfold update. split.
  - intros s. cbn [f_entries]. destruct (N.eqb_spec s t) as [->|D]; [congruence|]. rewrite A. destruct (N.eqb_spec s t); [contradiction|reflexivity].
  - intros j. cbn [f_nodes]. destruct (N.eqb_spec j i) as [->|D]; [congruence|]. rewrite B. destruct (N.eqb_spec j i); [contradiction|reflexivity].
Qed.
Lemma plain_extends f g s b : plain_file f s b -> extends f g -> plain_file g s b.
Proof. intros (i & A & B) E. destruct (E s) as [C D]; [congruence|]. exists i. split; [congruence|]. rewrite (D i A). exact B. Qed.
Lemma has_extends d b f g q : has_conversion entry_of lib d b f q -> extends f g -> has_conversion entry_of lib d b g q.
Proof. intros (t & c & A & B & C) E. exists t, c. split; [exact A|]. split; [eapply plain_extends; eassumption|exact C]. Qed.

(** ** Writing *)

Lemma set_content_nodes f i n b : f_nodes f i = Some n -> f_entries (set_content f i b) = f_entries f /\
  forall j, f_nodes (set_content f i b) j = if j =? i then Some (mkNode (n_regular n) b (n_links n)) else f_nodes f j.
Proof. intros E. unfold set_content. rewrite E. split; reflexivity. Qed.

Lemma write_created f t i w : w_fs w = add_file f t i ->
  forall d w', w' = write_out (WriteNode i) d w ->
  created f t i d (w_fs w') /\ w_refused w' = w_refused w /\ (exists l, w_past w' = l ++ w_past w) /\
  (forall g, In g (moments w') -> In g (moments w) \/ exists out, prefix_of out d /\ created f t i out g).
Proof.
  intros Ew d w' Hw. unfold write_out in Hw. rewrite Ew in Hw. unfold add_file in Hw. cbn [f_nodes] in Hw. unfold update in Hw. rewrite N.eqb_refl in Hw.
  cbn [n_regular n_content app] in Hw. subst w'.
  assert (C0 : created f t i [] (w_fs w)).
  { rewrite Ew. unfold add_file, created, update. cbn [f_entries f_nodes]. split; intros; reflexivity. }
  clear Ew.
  assert (K : forall m, (m <= length d)%nat ->
    let w' := fold_left (fun w k => set_fs w (set_content (w_fs w) i (firstn k d))) (seq 1 m) w in
    created f t i (firstn m d) (w_fs w') /\ w_refused w' = w_refused w /\ (exists l, w_past w' = l ++ w_past w) /\
    (forall g, In g (moments w') -> In g (moments w) \/ exists out, prefix_of out d /\ created f t i out g)).
  { induction m as [|m IH]; intros Lm; cbv zeta.
    - cbn. split; [exact C0|]. split; [reflexivity|]. split; [exists []; reflexivity|]. auto.
    - rewrite seq_S, fold_left_app. cbn [fold_left]. cbv zeta in IH. destruct (IH ltac:(lia)) as (A & B & (l & C) & D). clear IH.
      set (w1 := fold_left _ (seq 1 m) w) in *. change (1 + m)%nat with (S m).
      destruct A as [A1 A2]. pose proof (A2 i) as Ei. rewrite N.eqb_refl in Ei.
      destruct (set_content_nodes _ _ _ (firstn (S m) d) Ei) as [S1 S2]. cbn [n_regular n_links] in S2.
      assert (C2 : created f t i (firstn (S m) d) (set_content (w_fs w1) i (firstn (S m) d))).
      { split; [intros s; rewrite S1; apply A1|]. intros j. rewrite S2. destruct (N.eqb_spec j i) as [->|D']; [reflexivity|]. rewrite A2. destruct (N.eqb_spec j i); [contradiction|reflexivity]. }
      split; [exact C2|]. split; [exact B|]. split; [exists (w_fs w1 :: l); cbn [set_fs w_past]; rewrite C; reflexivity|].
      intros g [<-|Ig]; [right; exists (firstn (S m) d); split; [exists (skipn (S m) d); rewrite firstn_skipn; reflexivity|exact C2]|]. apply D. exact Ig. }
  specialize (K (length d) (le_n _)). cbv zeta in K. rewrite firstn_all in K. exact K.
Qed.

Lemma in_moments_past w w' l : w_past w' = l ++ w_past w -> forall g, In g (w_past w) -> In g (moments w').
Proof. intros E g I. right. rewrite E. apply in_or_app. right. exact I. Qed.
End WithEnvironment.

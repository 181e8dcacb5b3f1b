(** Proofs about the files of key pairs while they are generated (C92). *)
From Coq.Strings Require Import Byte String.
From Coq Require Import List NArith ZArith Bool PeanoNat Lia.
From Verif Require Import Base BaseFacts Shamir Errors Io Text Util CliErrors Getopts Crypto HeaderCrypto KeyFiles Ui UiSpec Paths PathSpec PathProofs CliCreds Cli CliSpec OptSpec OptProofs CmdSpec CmdProofs
  Fs Commands FsSpec FsProofs FsProofs2 FsProofs4 FsProofs10 FlowSpec FlowProofs StreamSpec ForceSpec ForceProofs PairSpec PropCommandLine.
Import ListNotations.
Local Open Scope N_scope.

Lemma prefix_firstn (k : nat) (d : bytes) : prefix_of (firstn k d) d.
Proof. exists (skipn k d). symmetry. apply firstn_skipn. Qed.
Lemma prefix_all (d : bytes) : prefix_of d d.
Proof. exists []. rewrite app_nil_r. reflexivity. Qed.
Lemma prefix_step (a b c : bytes) : prefix_of a b -> prefix_of b c -> prefix_of a c.
Proof. intros [r1 ->] [r2 ->]. exists (r1 ++ r2). rewrite app_assoc. reflexivity. Qed.

(** Writing to an ordinary file that was opened. *)
Lemma write_part f t i w : created f t i [] (w_fs w) -> forall d w', w' = write_out (WriteNode i) d w ->
  created f t i d (w_fs w') /\ (forall g, In g (moments w') -> In g (moments w) \/ exists out, prefix_of out d /\ created f t i out g).
Proof.
  intros C0 d w' Hw. unfold write_out in Hw. pose proof (proj2 C0 i) as E0. rewrite N.eqb_refl in E0. rewrite E0 in Hw.
  cbn [n_regular n_content app] in Hw. subst w'.
  assert (K : forall m, (m <= length d)%nat ->
    let w' := fold_left (fun w k => set_fs w (set_content (w_fs w) i (firstn k d))) (seq 1 m) w in
    created f t i (firstn m d) (w_fs w') /\ (forall g, In g (moments w') -> In g (moments w) \/ exists out, prefix_of out d /\ created f t i out g)).
  { induction m as [|m IH]; intros Lm; cbv zeta.
    - cbn. split; [exact C0|]. auto.
    - rewrite seq_S, fold_left_app. cbn [fold_left]. cbv zeta in IH. destruct (IH ltac:(lia)) as (A & D). clear IH.
      set (w1 := fold_left _ (seq 1 m) w) in *. change (1 + m)%nat with (S m).
      destruct A as [A1 A2]. pose proof (A2 i) as Ei. rewrite N.eqb_refl in Ei.
      destruct (set_content_nodes _ _ _ (firstn (S m) d) Ei) as [S1 S2]. cbn [n_regular n_links] in S2.
      assert (C2 : created f t i (firstn (S m) d) (set_content (w_fs w1) i (firstn (S m) d))).
      { split; [intros s; rewrite S1; apply A1|]. intros j. rewrite S2. destruct (N.eqb_spec j i) as [->|D']; [reflexivity|]. rewrite A2. destruct (N.eqb_spec j i); [contradiction|reflexivity]. }
      split; [exact C2|]. intros g [<-|Ig]; [right; exists (firstn (S m) d); split; [apply prefix_firstn|exact C2]|]. apply D. exact Ig. }
  specialize (K (length d) (le_n _)). cbv zeta in K. rewrite firstn_all in K. exact K.
Qed.

Section WithEnvironment.
Variable entry_of : names.
Variable lib : crypto_lib.
Variable sha512 : bytes -> bytes.

(** At [t] there is a part of [b], and nothing else has changed. *)
Definition part_at (t : N) (b : bytes) (f g : fs) : Prop :=
  wf_fs g /\ (exists out, prefix_of out b /\ plain_file g t out) /\ forall u, u <> t -> intact f g u.
Lemma part_created f t i out b g : wf_fs f -> room_at f t i -> created f t i out g -> prefix_of out b -> part_at t b f g.
Proof.
  intros W R C P. split; [eapply room_wf; eassumption|]. split; [exists out; split; [exact P|eapply created_plain, C]|]. eapply room_intact; eassumption.
Qed.

(** Opening and writing one file. *)
Lemma put q t force txt w r w' : (let! wr := open_output entry_of (OFile q) force in write_text entry_of wr txt) w r w' ->
  entry_of q = Some t -> ordinary (w_fs w) t -> wf_fs (w_fs w) ->
  (w' = w /\ exists e, r = Err e) \/
  ((forall g, In g (moments w') -> In g (moments w) \/ part_at t (utf8 txt) (w_fs w) g) /\ part_at t (utf8 txt) (w_fs w) (w_fs w') /\
   r <> Panic /\ (r = Ok tt -> plain_file (w_fs w') t (utf8 txt))).
Proof.
  intros H Et O W. destruct H as [(wr & w1 & H1 & H)|[(e & H1 & ->)|(H1 & ->)]]; destruct (output_ordinary entry_of _ _ _ _ _ _ Et O H1) as [(-> & E)|(i & E & R & C & M)]; try discriminate E.
  2:{ left. eauto. }
  injection E as ->. right.
  assert (K : forall out, prefix_of out (utf8 txt) -> let w2 := write_out (WriteNode i) out w1 in
    (forall g, In g (moments w2) -> In g (moments w) \/ part_at t (utf8 txt) (w_fs w) g) /\ part_at t (utf8 txt) (w_fs w) (w_fs w2) /\ plain_file (w_fs w2) t out).
  { intros out P w2. destruct (write_part _ _ _ _ C out w2 eq_refl) as (A & D). split; [|split; [eapply part_created; eassumption|eapply created_plain, A]].
    intros g Ig. destruct (D g Ig) as [I|(o & Po & Co)]; [|right; eapply part_created; [exact W|exact R|exact Co|eapply prefix_step; eassumption]].
    rewrite M in I. destruct I as [<-|I]; [|auto]. right. eapply part_created; [exact W|exact R|exact C|exists (utf8 txt); reflexivity]. }
  destruct H as [(-> & ->)|(_ & -> & out & P & ->)].
  - destruct (K _ (prefix_all _)) as (A & B & D). split; [exact A|]. split; [exact B|]. split; [discriminate|]. auto.
  - destruct (K _ P) as (A & B & D). split; [exact A|]. split; [exact B|]. split; discriminate.
Qed.
Lemma put_nowhere q force txt w r w' : (let! wr := open_output entry_of (OFile q) force in write_text entry_of wr txt) w r w' -> entry_of q = None -> w' = w /\ exists e, r = Err e.
Proof.
  intros H En. assert (K : forall r w1, open_output entry_of (OFile q) force w r w1 -> w1 = w /\ exists e, r = Err e).
  { intros r0 w1 H1. cbn [open_output] in H1. destruct force.
    - destruct H1 as [(-> & -> & _)|(t1 & t2 & i & Et1 & _)]; [eauto|congruence].
    - destruct H1 as [(-> & -> & _)|(t1 & i & Et1 & _)]; [eauto|congruence]. }
  destruct H as [(wr & w1 & H1 & H)|[(e & H1 & ->)|(H1 & ->)]]; destruct (K _ _ H1) as (-> & e' & E); try discriminate E. eauto.
Qed.

(** ** One pair *)

Definition entries (x : path) : list N := match entry_of x with Some t => [t] | None => [] end.
Definition key_entries (ks : key_streams) : list N :=
  match k_public ks with Some p => entries p | None => [] end ++ match k_private ks with OFile q => entries q | OStdout => [] end.
Definition proper (ks : key_streams) : Prop := ks = mkKeyStreams None OStdout \/ exists p q, ks = mkKeyStreams (Some p) (OFile q).

Definition ks_stage (f g : fs) (ks : key_streams) : Prop := forall p q, ks = mkKeyStreams (Some p) (OFile q) -> stage entry_of lib sha512 f g p q.
Definition ks_done (g : fs) (ks : key_streams) : Prop := forall p q, ks = mkKeyStreams (Some p) (OFile q) -> complete_pair entry_of lib sha512 g p q.
(** Only these entries change. *)
Definition only_these (l : list N) (f g : fs) : Prop := wf_fs g /\ forall u, ~ In u l -> intact f g u.

Lemma entries_in x t : entry_of x = Some t -> In t (entries x).
Proof. intros E. unfold entries. rewrite E. left. reflexivity. Qed.
Lemma stage_step f g h p q : stage entry_of lib sha512 f g p q -> (forall t, In t (entries p ++ entries q) -> intact g h t) -> stage entry_of lib sha512 f h p q.
Proof.
  intros S I. assert (Ip : forall t, entry_of p = Some t -> intact g h t) by (intros t E; apply I, in_or_app; left; apply entries_in, E).
  assert (Iq : forall t, entry_of q = Some t -> intact g h t) by (intros t E; apply I, in_or_app; right; apply entries_in, E).
  destruct S as [U|(pub & priv & t & Tx & Et & K)].
  - left. intros x t X Ex. eapply intact_step; [exact (U x t X Ex)|]. destruct X as [->| ->]; auto.
  - right. exists pub, priv, t. split; [exact Tx|]. split; [exact Et|]. destruct K as [(out & P & F & J)|(F & u & out & Eu & P & G)].
    + left. exists out. split; [exact P|]. split; [eapply intact_plain; [exact (Ip t Et)|exact F]|]. intros u Eu. eapply intact_step; [exact (J u Eu)|exact (Iq u Eu)].
    + right. split; [eapply intact_plain; [exact (Ip t Et)|exact F]|]. exists u, out. split; [exact Eu|]. split; [exact P|]. eapply intact_plain; [exact (Iq u Eu)|exact G].
Qed.
Lemma stage_before f f' g p q : (forall t, In t (entries p ++ entries q) -> intact f f' t) -> stage entry_of lib sha512 f' g p q -> stage entry_of lib sha512 f g p q.
Proof.
  intros I S. assert (Ip : forall t, entry_of p = Some t -> intact f f' t) by (intros t E; apply I, in_or_app; left; apply entries_in, E).
  assert (Iq : forall t, entry_of q = Some t -> intact f f' t) by (intros t E; apply I, in_or_app; right; apply entries_in, E).
  destruct S as [U|(pub & priv & t & Tx & Et & K)].
  - left. intros x t X Ex. eapply intact_step; [|exact (U x t X Ex)]. destruct X as [->| ->]; auto.
  - right. exists pub, priv, t. split; [exact Tx|]. split; [exact Et|]. destruct K as [(out & P & F & J)|K]; [|right; exact K].
    left. exists out. split; [exact P|]. split; [exact F|]. intros u Eu. eapply intact_step; [exact (Iq u Eu)|exact (J u Eu)].
Qed.
Lemma done_step g h ks : ks_done g ks -> (forall t, In t (key_entries ks) -> intact g h t) -> ks_done h ks.
Proof.
  intros D I p q ->. destruct (D p q eq_refl) as (pub & priv & t & u & Tx & Et & F & Eu & G). unfold key_entries in I; cbn [k_public k_private] in I. exists pub, priv, t, u.
  split; [exact Tx|]. split; [exact Et|]. split; [|split; [exact Eu|]].
  - eapply intact_plain; [|exact F]. apply I, in_or_app. left. apply entries_in, Et.
  - eapply intact_plain; [|exact G]. apply I, in_or_app. right. apply entries_in, Eu.
Qed.
Lemma ks_stage_step f g h ks : ks_stage f g ks -> (forall t, In t (key_entries ks) -> intact g h t) -> ks_stage f h ks.
Proof. intros S I p q ->. eapply stage_step; [exact (S p q eq_refl)|exact I]. Qed.
Lemma ks_stage_before f f' g ks : (forall t, In t (key_entries ks) -> intact f f' t) -> ks_stage f' g ks -> ks_stage f g ks.
Proof. intros I S p q ->. eapply stage_before; [exact I|exact (S p q eq_refl)]. Qed.
Lemma ks_stage_refl f ks : ks_stage f f ks.
Proof. intros p q _. left. intros. apply intact_refl. Qed.

Lemma pair_steps ks force pub priv w r w' : write_pair entry_of ks force pub priv w r w' -> texts_of_a_pair lib sha512 pub priv -> proper ks ->
  wf_fs (w_fs w) -> NoDup (key_entries ks) -> (forall t, In t (key_entries ks) -> ordinary (w_fs w) t) ->
  (forall g, In g (moments w') -> In g (moments w) \/ (only_these (key_entries ks) (w_fs w) g /\ ks_stage (w_fs w) g ks)) /\
  only_these (key_entries ks) (w_fs w) (w_fs w') /\ ks_stage (w_fs w) (w_fs w') ks /\ (r = Ok tt -> ks_done (w_fs w') ks).
Proof.
  intros H Tx [->|(p & q & ->)] W Nd Or.
  { assert (Q : same_files w w').
    { unfold write_pair in H. cbn [k_public k_private open_output] in H.
      destruct H as [(x & w1 & [_ ->] & H)|[(e & [E _] & _)|([E _] & _)]]; [|discriminate E..].
      destruct H as [(x' & w2 & H2 & H)|[(e & H2 & ->)|(H2 & ->)]]; pose proof (quiet_ui _ _ _ _ H2) as Q2; [|exact Q2..].
      destruct H as [(wr & w3 & [E ->] & H)|[(e & [E _] & _)|([E _] & _)]]; try discriminate E. injection E as ->.
      eapply same_trans; [exact Q2|]. destruct H as [(_ & ->)|(_ & _ & out & _ & ->)]; repeat split. }
    rewrite (moments_same _ _ Q), (proj1 Q). split; [auto|]. split; [split; [exact W|intros; apply intact_refl]|]. split; [apply ks_stage_refl|]. intros _ p q E. discriminate E. }
  unfold write_pair in H. unfold key_entries in *. cbn [k_public k_private] in *.
  match type of H with io_bind ?m _ _ _ _ => set (first := m) in H end.
  assert (Nothing : forall w1, same_files w w1 -> (forall g, In g (moments w1) -> In g (moments w) \/ (only_these (entries p ++ entries q) (w_fs w) g /\ ks_stage (w_fs w) g (mkKeyStreams (Some p) (OFile q)))) /\
    only_these (entries p ++ entries q) (w_fs w) (w_fs w1) /\ ks_stage (w_fs w) (w_fs w1) (mkKeyStreams (Some p) (OFile q))).
  { intros w1 Q. rewrite (moments_same _ _ Q), (proj1 Q). split; [auto|]. split; [split; [exact W|intros; apply intact_refl]|apply ks_stage_refl]. }
  assert (F : forall r w1, first w r w1 -> (same_files w w1 /\ r <> Ok tt) \/
    exists t, entry_of p = Some t /\ (forall g, In g (moments w1) -> In g (moments w) \/ part_at t (utf8 pub) (w_fs w) g) /\ part_at t (utf8 pub) (w_fs w) (w_fs w1) /\ (r = Ok tt -> plain_file (w_fs w1) t (utf8 pub))).
  { clear H r w'. intros r w1 H. unfold first in H. destruct H as [(u & w0 & H0 & H)|[(e & H & ->)|(H & ->)]]; [|left; split; [eapply quiet_ui, H|discriminate]..].
    pose proof (quiet_ui _ _ _ _ H0) as Q. destruct (entry_of p) as [t|] eqn:Et.
    - destruct (put _ _ _ _ _ _ _ H Et) as [(-> & e & ->)|(A & B & _ & D)].
      + rewrite (proj1 Q). apply Or, in_or_app. left. apply entries_in, Et.
      + rewrite (proj1 Q). exact W.
      + left. split; [exact Q|discriminate].
      + right. exists t. split; [reflexivity|]. rewrite (moments_same _ _ Q), (proj1 Q) in A. rewrite (proj1 Q) in B. auto.
    - destruct (put_nowhere _ _ _ _ _ _ H Et) as (-> & e & ->). left. split; [exact Q|discriminate]. }
  clearbody first.
  assert (Pp : forall t g, entry_of p = Some t -> part_at t (utf8 pub) (w_fs w) g -> only_these (entries p ++ entries q) (w_fs w) g /\ ks_stage (w_fs w) g (mkKeyStreams (Some p) (OFile q))).
  { intros t g Et (A & (out & P & B) & D). split.
    - split; [exact A|]. intros u Nu. apply D. intros ->. apply Nu, in_or_app. left. apply entries_in, Et.
    - intros p' q' [= <- <-]. right. exists pub, priv, t. split; [exact Tx|]. split; [exact Et|]. left. exists out. split; [exact P|]. split; [exact B|].
      intros u Eu. apply D. intros ->. unfold entries in Nd. rewrite Et, Eu in Nd. cbn in Nd. inversion Nd as [|x l N _]. apply N. left. reflexivity. }
  destruct H as [([] & w1 & H1 & H)|[(e & H & ->)|(H & ->)]].
  2,3: destruct (F _ _ H) as [(Q & _)|(t & Et & A & B & _)];
    [destruct (Nothing _ Q) as (X & Y & Z); split; [exact X|]; split; [exact Y|]; split; [exact Z|discriminate]|];
    split; [intros g Ig; destruct (A g Ig); [auto|right; eapply Pp; eassumption]|]; destruct (Pp t _ Et B) as [Y Z]; split; [exact Y|]; split; [exact Z|discriminate].
  destruct (F _ _ H1) as [(_ & X)|(t & Et & A & B & D)]; [contradiction X; reflexivity|]. specialize (D eq_refl).
  assert (Stop : forall w2 (r : outcome cerr unit), same_files w1 w2 -> r <> Ok tt -> (forall g, In g (moments w2) -> In g (moments w) \/ (only_these (entries p ++ entries q) (w_fs w) g /\ ks_stage (w_fs w) g (mkKeyStreams (Some p) (OFile q)))) /\
    only_these (entries p ++ entries q) (w_fs w) (w_fs w2) /\ ks_stage (w_fs w) (w_fs w2) (mkKeyStreams (Some p) (OFile q)) /\ (r = Ok tt -> ks_done (w_fs w2) (mkKeyStreams (Some p) (OFile q)))).
  { intros w2 r0 Q Nr. rewrite (moments_same _ _ Q), (proj1 Q). split; [intros g Ig; destruct (A g Ig); [auto|right; eapply Pp; eassumption]|].
    destruct (Pp t _ Et B) as [Y Z]. split; [exact Y|]. split; [exact Z|]. intros E. contradiction. }
  destruct H as [(u & w2 & H2 & H)|[(e & H2 & ->)|(H2 & ->)]]; pose proof (quiet_ui _ _ _ _ H2) as Q2; [|apply Stop; [exact Q2|discriminate]..].
  destruct (entry_of q) as [v|] eqn:Ev.
  2:{ destruct (put_nowhere _ _ _ _ _ _ H Ev) as (-> & e & ->). apply Stop; [exact Q2|discriminate]. }
  assert (Dv : v <> t).
  { intros ->. unfold entries in Nd. rewrite Et, Ev in Nd. cbn in Nd. inversion Nd as [|x l N _]. apply N. left. reflexivity. }
  destruct B as (B1 & B2 & B3). destruct (put _ _ _ _ _ _ _ H Ev) as [(-> & e & ->)|(A' & B' & _ & D')].
  - rewrite (proj1 Q2). eapply intact_ordinary; [apply B3, Dv|]. apply Or, in_or_app. right. apply entries_in, Ev.
  - rewrite (proj1 Q2). exact B1.
  - apply Stop; [exact Q2|discriminate].
  - rewrite (moments_same _ _ Q2), (proj1 Q2) in A'. rewrite (proj1 Q2) in B'.
    assert (Pq : forall g, part_at v (utf8 priv) (w_fs w1) g -> only_these (entries p ++ entries q) (w_fs w) g /\ ks_stage (w_fs w) g (mkKeyStreams (Some p) (OFile q))).
    { intros g (X & (out & P & Y) & Z). split.
      - split; [exact X|]. intros x Nx. eapply intact_step; [apply B3; intros ->; apply Nx, in_or_app; left; apply entries_in, Et|].
        apply Z. intros ->. apply Nx, in_or_app. right. apply entries_in, Ev.
      - intros p' q' [= <- <-]. right. exists pub, priv, t. split; [exact Tx|]. split; [exact Et|]. right. split; [eapply intact_plain; [apply Z; congruence|exact D]|].
        exists v, out. auto. }
    split; [|split; [apply Pq, B'|split; [apply Pq, B'|]]].
    + intros g Ig. destruct (A' g Ig) as [I|I]; [|right; apply Pq, I]. destruct (A g I) as [I'|I']; [auto|]. right. eapply Pp; eassumption.
    + intros E p' q' [= <- <-]. exists pub, priv, t, v. split; [exact Tx|]. split; [exact Et|]. split; [|split; [exact Ev|apply D', E]].
      destruct B' as (_ & _ & Z). eapply intact_plain; [apply Z; congruence|exact D].
Qed.

(** ** All pairs *)

Lemma only_later l l' f g h : only_these l f g -> only_these l' g h -> only_these (l ++ l') f h.
Proof.
  intros [_ A] [B C]. split; [exact B|]. intros u N. eapply intact_step; [apply A|apply C]; intros I; apply N, in_or_app; auto.
Qed.
Lemma nodup_parts (l l' : list N) : NoDup (l ++ l') -> NoDup l /\ NoDup l' /\ forall t, In t l -> ~ In t l'.
Proof.
  induction l as [|x l IH]; cbn [app]; intros H; [split; [constructor|auto]|]. inversion H as [|y k N H']; subst. destruct (IH H') as (A & B & C). split; [|split; [exact B|]].
  - constructor; [|exact A]. intros I. apply N, in_or_app. auto.
  - intros t [->|I]; [|apply C, I]. intros I. apply N, in_or_app. auto.
Qed.
Lemma all_steps {k n} cs force streams : lib ChaCha20Poly1305Ietf = Some cs -> forall w r w', generate_all entry_of sha512 k n cs streams force w r w' ->
  (forall ks, In ks streams -> proper ks) -> wf_fs (w_fs w) -> NoDup (flat_map key_entries streams) -> (forall t, In t (flat_map key_entries streams) -> ordinary (w_fs w) t) ->
  (forall g, In g (moments w') -> In g (moments w) \/ (only_these (flat_map key_entries streams) (w_fs w) g /\ forall ks, In ks streams -> ks_stage (w_fs w) g ks)) /\
  (only_these (flat_map key_entries streams) (w_fs w) (w_fs w') /\ forall ks, In ks streams -> ks_stage (w_fs w) (w_fs w') ks) /\
  (r = Ok [] -> forall ks, In ks streams -> ks_done (w_fs w') ks).
Proof.
  intros El. revert k. induction streams as [|ks streams IH]; intros k w r w' H Pr W Nd Or; cbn [generate_all] in H.
  { destruct H as [_ ->]. split; [auto|]. split; [split; [split; [exact W|intros; apply intact_refl]|intros ks []]|]. intros _ ks []. }
  cbn [flat_map] in *. set (rest := flat_map key_entries streams) in *. destruct (nodup_parts _ _ Nd) as (N1 & N2 & N3).
  assert (Same : forall w1 (e : outcome cerr (list cerr)), same_files w w1 -> e <> Ok [] ->
    (forall g, In g (moments w1) -> In g (moments w) \/ (only_these (key_entries ks ++ rest) (w_fs w) g /\ forall k, In k (ks :: streams) -> ks_stage (w_fs w) g k)) /\
    (only_these (key_entries ks ++ rest) (w_fs w) (w_fs w1) /\ forall k, In k (ks :: streams) -> ks_stage (w_fs w) (w_fs w1) k) /\ (e = Ok [] -> forall k, In k (ks :: streams) -> ks_done (w_fs w1) k)).
  { intros w1 e Q Ne. rewrite (moments_same _ _ Q), (proj1 Q). split; [auto|]. split; [|contradiction]. split; [split; [exact W|intros; apply intact_refl]|]. intros; apply ks_stage_refl. }
  destruct H as [([pk sk] & w1 & (-> & seed & Ek) & H)|[(e & (_ & seed & E) & _)|((_ & seed & E) & _)]]; try discriminate E. injection Ek as Ek.
  destruct H as [([pub priv] & w1 & [Et ->] & H)|[(e & [_ ->] & ->)|([_ ->] & ->)]]; [|apply Same; [apply same_refl|discriminate]..].
  destruct H as [(u1 & w1 & H1 & H)|[(e & H & ->)|(H & ->)]]; [|apply Same; [eapply quiet_ui, H|discriminate]..].
  pose proof (quiet_ui _ _ _ _ H1) as Q1. destruct H as [(u2 & w2 & H2 & H)|[(e & H & ->)|(H & ->)]]; [|apply Same; [eapply same_trans; [exact Q1|eapply quiet_ui, H]|discriminate]..].
  pose proof (same_trans _ _ _ Q1 (quiet_ui _ _ _ _ H2)) as Q2. clear Q1 H1 H2.
  assert (Tx : texts_of_a_pair lib sha512 pub priv) by (exists cs, seed; split; [exact El|]; rewrite <- Ek; symmetry; exact Et).
  assert (Wp : forall r w3, write_pair entry_of ks force pub priv w2 r w3 ->
    (forall g, In g (moments w3) -> In g (moments w) \/ (only_these (key_entries ks) (w_fs w) g /\ ks_stage (w_fs w) g ks)) /\
    only_these (key_entries ks) (w_fs w) (w_fs w3) /\ ks_stage (w_fs w) (w_fs w3) ks /\ (r = Ok tt -> ks_done (w_fs w3) ks)).
  { intros r0 w3 H3. destruct (pair_steps _ _ _ _ _ _ _ H3 Tx (Pr ks (or_introl eq_refl))) as (A & B & C & D).
    - rewrite (proj1 Q2). exact W.
    - exact N1.
    - intros t I. rewrite (proj1 Q2). apply Or, in_or_app. auto.
    - rewrite (moments_same _ _ Q2), (proj1 Q2) in A. rewrite (proj1 Q2) in B, C. auto. }
  assert (Ext : forall g, only_these (key_entries ks) (w_fs w) g /\ ks_stage (w_fs w) g ks -> only_these (key_entries ks ++ rest) (w_fs w) g /\ forall k, In k (ks :: streams) -> ks_stage (w_fs w) g k).
  { intros g [[A B] C]. split.
    - split; [exact A|]. intros u Nu. apply B. intros I. apply Nu, in_or_app. auto.
    - intros k0 [<-|I]; [exact C|]. eapply ks_stage_step; [apply ks_stage_refl|]. intros t It. apply B. intros J. apply (N3 t J). unfold rest. apply in_flat_map. eauto. }
  assert (Stop : forall r w3 w4 (e : outcome cerr (list cerr)), write_pair entry_of ks force pub priv w2 r w3 -> same_files w3 w4 -> e <> Ok [] ->
    (forall g, In g (moments w4) -> In g (moments w) \/ (only_these (key_entries ks ++ rest) (w_fs w) g /\ forall k, In k (ks :: streams) -> ks_stage (w_fs w) g k)) /\
    (only_these (key_entries ks ++ rest) (w_fs w) (w_fs w4) /\ forall k, In k (ks :: streams) -> ks_stage (w_fs w) (w_fs w4) k) /\ (e = Ok [] -> forall k, In k (ks :: streams) -> ks_done (w_fs w4) k)).
  { intros r0 w3 w4 e H3 Q Ne. destruct (Wp _ _ H3) as (A & B & C & _). rewrite (moments_same _ _ Q), (proj1 Q). split; [|split; [apply Ext; auto|contradiction]].
    intros g Ig. destruct (A g Ig) as [I|I]; [auto|right; apply Ext, I]. }
  destruct H as [(res & w3 & H3 & H)|[(e & [(x & _ & _ & E)|(_ & E)] & _)|([(x & _ & _ & E)|(H3 & _)] & ->)]]; try discriminate E;
    [|eapply Stop; [exact H3|apply same_refl|discriminate]].
  destruct H3 as [(x & Nx & H3 & E)|(_ & E)]; [|discriminate E]. injection E as ->.
  match type of H with io_bind ?m _ _ _ _ => set (report := m) in H end.
  assert (Rp : forall r w4, report w3 r w4 -> same_files w3 w4 /\ (r = Ok [] -> x = Ok tt)).
  { clear H. intros r0 w4 H. unfold report in H. destruct x as [[]|e|]; [destruct H as [_ ->]; split; [apply same_refl|auto]| |contradiction Nx; reflexivity].
    destruct H as [(u & w5 & H & [-> ->])|[(e' & H & ->)|(H & ->)]]; (split; [eapply quiet_ui, H|discriminate]). }
  destruct H as [(errs & w4 & H4 & H)|[(e & H4 & ->)|(H4 & ->)]]; destruct (Rp _ _ H4) as [Q4 P4]; [|eapply Stop; [exact H3|exact Q4|discriminate]..].
  destruct H as [(u5 & w5 & H5 & H)|[(e & H & ->)|(H & ->)]]; [|eapply Stop; [exact H3|eapply same_trans; [exact Q4|eapply quiet_ui, H]|discriminate]..].
  pose proof (same_trans _ _ _ Q4 (quiet_ui _ _ _ _ H5)) as Q5. clear H5 Q4.
  destruct (Wp _ _ H3) as (A3 & B3 & C3 & D3).
  assert (R : forall r6 w6, generate_all entry_of sha512 (S k) n cs streams force w5 r6 w6 ->
    (forall g, In g (moments w6) -> In g (moments w) \/ (only_these (key_entries ks ++ rest) (w_fs w) g /\ forall k, In k (ks :: streams) -> ks_stage (w_fs w) g k)) /\
    (only_these (key_entries ks ++ rest) (w_fs w) (w_fs w6) /\ forall k, In k (ks :: streams) -> ks_stage (w_fs w) (w_fs w6) k) /\
    (forall t, In t (key_entries ks) -> intact (w_fs w3) (w_fs w6) t) /\ (r6 = Ok [] -> forall k, In k streams -> ks_done (w_fs w6) k)).
  { intros r6 w6 H6. destruct (IH _ _ _ _ H6) as (A & B & C).
    - intros k0 I. apply Pr. right. exact I.
    - rewrite (proj1 Q5). exact (proj1 B3).
    - exact N2.
    - intros t I. rewrite (proj1 Q5). eapply intact_ordinary; [apply (proj2 B3); intros J; exact (N3 t J I)|]. apply Or, in_or_app. right. exact I.
    - rewrite (moments_same _ _ Q5), (proj1 Q5) in A. rewrite (proj1 Q5) in B.
      assert (Both : forall g, only_these rest (w_fs w3) g /\ (forall k, In k streams -> ks_stage (w_fs w3) g k) -> only_these (key_entries ks ++ rest) (w_fs w) g /\ forall k, In k (ks :: streams) -> ks_stage (w_fs w) g k).
      { intros g [X Y]. split; [eapply only_later; [exact B3|exact X]|]. intros k0 [<-|I].
        - eapply ks_stage_step; [exact C3|]. intros t It. apply (proj2 X). exact (N3 t It).
        - eapply ks_stage_before; [|exact (Y k0 I)]. intros t It. apply (proj2 B3). intros J. apply (N3 t J). unfold rest. apply in_flat_map. eauto. }
      split; [|split; [apply Both, B|split; [|exact C]]].
      + intros g Ig. destruct (A g Ig) as [I|I]; [|right; apply Both, I]. destruct (A3 g I) as [I'|I']; [auto|right; apply Ext, I'].
      + intros t It. apply (proj2 (proj1 B)). exact (N3 t It). }
  destruct H as [(errs' & w6 & H6 & [-> ->])|[(e & H & ->)|(H & ->)]]; [|destruct (R _ _ H) as (A & B & _); split; [exact A|]; split; [exact B|discriminate]..].
  destruct (R _ _ H6) as (A & B & I6 & C). split; [exact A|]. split; [exact B|]. intros [= E]. apply app_eq_nil in E as [-> ->]. intros k0 [<-|I].
  - eapply done_step; [apply D3, P4; reflexivity|exact I6].
  - apply C; [reflexivity|exact I].
Qed.
Lemma generation_steps force streams w r w' : generate_key_pair_files entry_of lib sha512 streams force w r w' ->
  (forall ks, In ks streams -> proper ks) -> wf_fs (w_fs w) -> w_past w = [] -> NoDup (flat_map key_entries streams) -> (forall t, In t (flat_map key_entries streams) -> ordinary (w_fs w) t) ->
  (forall g, In g (moments w') -> only_these (flat_map key_entries streams) (w_fs w) g /\ forall ks, In ks streams -> ks_stage (w_fs w) g ks) /\
  (r = Ok tt -> forall ks, In ks streams -> ks_done (w_fs w') ks).
Proof.
  intros H Pr W Pw Nd Or.
  assert (Start : forall g, In g (moments w) -> only_these (flat_map key_entries streams) (w_fs w) g /\ forall ks, In ks streams -> ks_stage (w_fs w) g ks).
  { intros g I. unfold moments in I. rewrite Pw in I. destruct I as [<-|[]]. split; [split; [exact W|intros; apply intact_refl]|]. intros; apply ks_stage_refl. }
  unfold generate_key_pair_files in H. destruct H as [(cs & w1 & [E ->] & H)|[(e & [E ->] & ->)|([E ->] & ->)]]; [|split; [exact Start|discriminate]..].
  destruct (lib ChaCha20Poly1305Ietf) as [cs0|] eqn:El; [|discriminate E]. injection E as <-.
  destruct H as [(errs & w1 & H & [-> ->])|[(e & H & ->)|(H & ->)]]; destruct (all_steps _ _ _ El _ _ _ H Pr W Nd Or) as (A & _ & C);
    (split; [intros g Ig; destruct (A g Ig) as [I|I]; [apply Start, I|exact I]|]); try discriminate.
  intros E. apply C. destruct errs; [reflexivity|discriminate E].
Qed.

(** ** Names *)

Lemma asked_pairs f free l ks : unambiguous_keys entry_of f free -> Forall2 key_pair l ks -> (exists l0, free = l0 ++ l) ->
  NoDup (flat_map key_entries ks) /\ (forall t, In t (flat_map key_entries ks) -> exists a x, In a l /\ a <> lit "-" /\ (x = components a \/ public_of (components a) x) /\ entry_of x = Some t).
Proof.
  intros U F. induction F as [|a k l ks K F IH]; intros (l0 & El); [split; [constructor|intros t []]|].
  destruct IH as [N P]; [exists (l0 ++ [a]); rewrite El, <- app_assoc; reflexivity|]. cbn [flat_map].
  assert (P' : forall t, In t (flat_map key_entries ks) -> exists b x, In b (a :: l) /\ b <> lit "-" /\ (x = components b \/ public_of (components b) x) /\ entry_of x = Some t).
  { intros t I. destruct (P t I) as (b & x & Ib & X). exists b, x. split; [right; exact Ib|exact X]. }
  destruct K as [[_ ->]|(Na & q & -> & Hq)]; [split; [exact N|exact P']|].
  assert (Ia : In a free) by (rewrite El; apply in_or_app; right; left; reflexivity).
  assert (Il : forall b, In b l -> In b free) by (intros b I; rewrite El; apply in_or_app; right; right; exact I).
  destruct (uk_names _ _ _ U a Ia Na) as (d & n & Fn). destruct (Hq _ _ Fn) as (n' & Pn & Fq). assert (Pq : public_of (components a) q) by (exists d, n, n'; auto).
  assert (Here : forall t, In t (key_entries (mkKeyStreams (Some q) (OFile (components a)))) -> exists x, (x = components a \/ public_of (components a) x) /\ entry_of x = Some t).
  { intros t I. unfold key_entries in I; cbn [k_public k_private] in I. apply in_app_or in I as [I|I]; unfold entries in I.
    - exists q. split; [right; exact Pq|]. destruct (entry_of q); [destruct I as [->|[]]; reflexivity|destruct I].
    - exists (components a). split; [left; reflexivity|]. destruct (entry_of (components a)); [destruct I as [->|[]]; reflexivity|destruct I]. }
  assert (Apart : forall t, In t (key_entries (mkKeyStreams (Some q) (OFile (components a)))) -> ~ In t (flat_map key_entries ks)).
  { intros t I J. destruct (Here t I) as (x & X & Ex). destruct (P t J) as (b & y & Ib & Nb & Y & Ey).
    assert (Dab : components a <> components b).
    { destruct (in_split b l Ib) as (l1 & l2 & Es). subst l. exact (uk_once _ _ _ U l0 a l1 b l2 El Na). }
    assert (x = y).
    { apply (uk_entries _ _ _ U); [exists a; auto|exists b; auto|congruence|congruence]. } subst y.
    destruct X as [->|X], Y as [Y|Y].
    - exact (Dab Y).
    - exact (uk_apart _ _ _ U b a (Il b Ib) Ia Y).
    - subst x. exact (uk_apart _ _ _ U a b Ia (Il b Ib) X).
    - exact (Dab (uk_public _ _ _ U a b x Ia (Il b Ib) X Y)). }
  split.
  - assert (N0 : NoDup (key_entries (mkKeyStreams (Some q) (OFile (components a))))).
    { unfold key_entries, entries; cbn [k_public k_private]. destruct (entry_of q) as [t|] eqn:Eq, (entry_of (components a)) as [u|] eqn:Ea; cbn [app]; [constructor; [|constructor; [intros []|constructor]]|constructor; [intros []|constructor]..|constructor].
      intros [E|[]]. subst u. assert (X : q = components a); [|rewrite X in Pq; exact (uk_apart _ _ _ U a a Ia Ia Pq)].
      apply (uk_entries _ _ _ U); [exists a; auto|exists a; auto|congruence|congruence]. }
    clear - N N0 Apart. revert N0 Apart. generalize (key_entries (mkKeyStreams (Some q) (OFile (components a)))). intros m N0 Apart.
    induction m as [|x m IH]; [exact N|]. inversion N0 as [|y k Nx N1]; subst. cbn [app]. constructor; [|apply IH; [exact N1|intros t I; apply Apart; right; exact I]].
    intros I. apply in_app_or in I as [I|I]; [exact (Nx I)|exact (Apart x (or_introl eq_refl) I)].
  - intros t I. apply in_app_or in I as [I|I]; [|exact (P' t I)]. destruct (Here t I) as (x & X & Ex). exists a, x. split; [left; reflexivity|auto].
Qed.

(** ** Command lines *)

Lemma generation_cases files args occs free tin tout terr w status w' : means 0 args occs free -> asks_for_keys occs -> args <> [] ->
  unambiguous_keys entry_of (w_fs w) free -> wf_fs (w_fs w) -> w_past w = [] ->
  main entry_of lib sha512 files args tin tout terr w status w' ->
  (forall g, In g (moments w') -> (forall u, (forall x, key_place free x -> entry_of x <> Some u) -> intact (w_fs w) g u) /\
     forall a d n n', In a free -> a <> lit "-" -> is_file (components a) d n -> public_name n n' -> stage entry_of lib sha512 (w_fs w) g (d ++ [Normal n']) (components a)) /\
  (status = 0 -> forall a d n n', In a free -> a <> lit "-" -> is_file (components a) d n -> public_name n n' -> complete_pair entry_of lib sha512 (w_fs w') (d ++ [Normal n']) (components a)).
Proof.
  intros R As Na U W Pw H. destruct (main_inv _ _ _ _ _ _ _ _ _ _ _ H) as (rc & u & Ep & [(N & Q & Z)|(c & r & w1 & -> & H1 & Q & _ & _ & Es)]).
  { split; [|intros E; contradiction]. intros g Ig. rewrite (moments_same _ _ Q) in Ig. unfold moments in Ig. rewrite Pw in Ig. destruct Ig as [<-|[]].
    split; [intros; apply intact_refl|]. intros. left. intros. apply intact_refl. }
  destruct (command_line_inv _ _ _ _ _ _ _ _ _ Ep) as (m & P & Pf & _). pose proof (means_is _ _ _ _ R P) as ->.
  rewrite (mode_keys _ _ As) in Pf. destruct args as [|a0 args]; [contradiction|]. cbn [andb] in Pf.
  destruct c as [streams policy force d|ks force| |]; try contradiction Pf. { destruct d; contradiction Pf. }
  cbn [run_command] in H1. destruct (C69_key_pairs _ _ _ _ _ _ _ _ _ _ _ _ R Ep) as (_ & _ & F & _).
  destruct (asked_pairs _ _ _ _ U F (ex_intro _ [] eq_refl)) as [Nd Pl].
  destruct (generation_steps _ _ (set_ui w u) _ _ H1) as [A B].
  - intros k I. clear - F I. induction F as [|a k' l ks K F IH]; [destruct I|]. destruct I as [->|I]; [|apply IH, I]. destruct K as [[_ ->]|(_ & q & -> & _)]; [left; reflexivity|right; eauto].
  - exact W.
  - exact Pw.
  - exact Nd.
  - intros t I. destruct (Pl t I) as (a & x & Ia & X & Y & Ex). apply (uk_ordinary _ _ _ U x t); [exists a; auto|exact Ex].
  - assert (Find : forall a d n n', In a free -> a <> lit "-" -> is_file (components a) d n -> public_name n n' -> In (mkKeyStreams (Some (d ++ [Normal n'])) (OFile (components a))) ks).
    { intros a d n n' Ia Nd' Fn Pn. clear - F Ia Nd' Fn Pn. induction F as [|b k l ks K F IH]; [destruct Ia|]. destruct Ia as [->|Ia]; [|right; apply IH, Ia].
      destruct K as [[X _]|(_ & q & -> & Hq)]; [contradiction|]. destruct (Hq _ _ Fn) as (n2 & Pn2 & Fq). rewrite (public_name_unique _ _ _ Pn Pn2). unfold is_file in Fq. subst q. left. reflexivity. }
    split.
    + intros g Ig. rewrite (moments_same _ _ Q) in Ig. destruct (A g Ig) as [[_ X] Y]. split.
      * intros v Nv. apply X. intros I. destruct (Pl v I) as (a & x & Ia & Da & Z & Ex). apply (Nv x); [exists a; auto|exact Ex].
      * intros a d n n' Ia Da Fn Pn. exact (Y _ (Find a d n n' Ia Da Fn Pn) _ _ eq_refl).
    + intros E0 a d n n' Ia Da Fn Pn. rewrite (proj1 Q). apply (B ltac:(destruct r as [[]| |]; [reflexivity|rewrite E0 in Es; discriminate Es..]) _ (Find a d n n' Ia Da Fn Pn) _ _ eq_refl).
Qed.
End WithEnvironment.

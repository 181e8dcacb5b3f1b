(** Proofs about the loop over the files, and about the removal of the originals, without force. *)
From Coq.Strings Require Import Byte String.
From Coq Require Import List NArith ZArith Bool PeanoNat Lia.
From Verif Require Import Base BaseFacts Shamir Errors Io HeaderIoSpec StreamSpec Text Util CliErrors Crypto HeaderCrypto CredSpec FileCrypto Ui UiSpec Paths Cli Fs Commands FsSpec FsProofs ConvProofs FsProofs2.
Import ListNotations.
Local Open Scope N_scope.

Section WithEnvironment.
Variable entry_of : names.
Variable lib : crypto_lib.
Hypothesis Hlib : lib_ok lib.

(** The stream [st], started in [f], has its conversion in [g]. *)
Definition converted (st : io_stream) (d : direction_opts) (f g : fs) : Prop :=
  exists q t b, s_output st = Ok (OFile q) /\ entry_of q = Some t /\ f_entries f t = None /\
    reads entry_of f (s_input st) b /\ has_conversion entry_of lib d b g q.
(** The file system after a stream that failed. *)
Definition failed (st : io_stream) (w w' : world) : Prop :=
  fs_eq (w_fs w) (w_fs w') \/
  exists q t, s_output st = Ok (OFile q) /\ entry_of q = Some t /\ f_entries (w_fs w) t = None /\ In t (w_refused w').

Lemma step_spec_full {k n} st d w r w' : step entry_of lib k n st false d w r w' ->
  grows w w' /\
  (forall t, f_entries (w_fs w') t <> None -> f_entries (w_fs w) t <> None \/ exists q, s_output st = Ok (OFile q) /\ entry_of q = Some t) /\
  (r = Panic \/
   (r = Ok (input_cleanup (s_input st), []) /\ opened_plain entry_of (w_fs w) (s_input st) /\
    ((same_files w w' /\ s_output st = Ok OStdout) \/ converted st d (w_fs w) (w_fs w'))) \/
   (exists e, r = Ok ([], [e]) /\ (fs_eq (w_fs w) (w_fs w') \/
      exists q t, s_output st = Ok (OFile q) /\ entry_of q = Some t /\ f_entries (w_fs w) t = None /\ w_refused w' = t :: w_refused w))).
Proof.
  intros H. unfold step in H.
  assert (C : forall q t i out g, s_output st = Ok (OFile q) -> entry_of q = Some t -> created (w_fs w) t i out g ->
    forall u, f_entries g u <> None -> f_entries (w_fs w) u <> None \/ exists q, s_output st = Ok (OFile q) /\ entry_of q = Some u).
  { intros q t i out g Eo Et [A _] u. rewrite A. destruct (N.eqb_spec u t) as [->|]; eauto. }
  destruct H as [([res cb] & w1 & H1 & H)|[(e & H1 & ->)|(H1 & ->)]].
  - destruct (attempt_spec entry_of lib Hlib _ _ _ _ _ H1) as [(Q & K)|(q & t & i & out & Eo & Et & F & Cr & Er & P1 & P2 & Op & K)]; clear H1.
    + destruct K as [K|(x & K & K1 & K2)]; [discriminate K|]. injection K as -> ->.
      assert (G : same_files w w' /\ (r = Panic \/ (r = Ok (input_cleanup (s_input st), []) /\ x = Ok tt) \/ exists e, r = Ok ([], [e]))).
      { destruct x as [[]|e|]; [destruct H as [-> ->]; auto| |contradiction K2; reflexivity].
        destruct H as [(u & w2 & H2 & H)|[(e2 & H2 & ->)|(H2 & ->)]].
        - destruct H as [(u' & w3 & [_ ->] & H)|[(e2 & [E _] & _)|([E _] & _)]]; [|discriminate E..]. destruct H as [-> ->].
          split; [eapply same_trans; [exact Q|eapply quiet_ui, H2]|]. right. right. eauto.
        - exfalso. destruct H2 as [H2 _]. unfold ignore in H2. destruct (print_error e (w_ui w1)) as [[| |] ?]; discriminate H2.
        - split; [eapply same_trans; [exact Q|eapply quiet_ui, H2]|]. left. reflexivity. }
      destruct G as [G G']. split; [apply same_grows, G|]. split; [rewrite (proj1 G); auto|].
      destruct G' as [->|[[-> ->]|[e ->]]]; [auto| |].
      * right. left. destruct (K1 eq_refl) as [Eo Op]. auto.
      * right. right. exists e. split; [reflexivity|]. left. rewrite (proj1 G). split; reflexivity.
    + destruct K as [K|(x & K & K1 & K2)]; [discriminate K|]. injection K as -> ->.
      assert (Gw : grows w w1).
      { constructor; [intros W; eapply created_wf; eassumption|eapply created_extends; eassumption| |exact P1|rewrite Er; auto].
        intros g Ig. destruct (P2 g Ig) as [I|(o & I)]; [auto|right; eapply created_extends; eassumption]. }
      destruct x as [[]|e|]; [| |contradiction K1; reflexivity].
      * destruct H as [-> ->]. split; [exact Gw|]. split; [eapply C; eassumption|]. right. left. split; [reflexivity|]. split; [exact Op|]. right.
        destruct (K2 eq_refl) as (b & Cb & Rb). exists q, t, b. split; [exact Eo|]. split; [exact Et|]. split; [exact (proj1 F)|]. split; [exact Rb|].
        exists t, out. split; [exact Et|]. split; [eapply created_plain, Cr|exact Cb].
      * clear K1 K2. destruct H as [(u & w2 & H2 & H)|[(e2 & H2 & ->)|(H2 & ->)]].
        2:{ exfalso. destruct H2 as [H2 _]. unfold ignore in H2. destruct (print_error e (w_ui w1)) as [[| |] ?]; discriminate H2. }
        2:{ exfalso. destruct H2 as [H2 _]. unfold ignore, print_error, emit in H2. destruct (will_print _ _); [destruct (u_room _) as [[|]|]|]; discriminate H2. }
        apply quiet_ui in H2. destruct H as [(u' & w3 & H3 & H)|[(e3 & H3 & ->)|(H3 & ->)]].
        2,3: destruct (remove_cb_spec _ _ _ _ _ _ H3) as [E _]; discriminate E.
        destruct H as [-> ->]. destruct (remove_cb_spec _ _ _ _ _ _ H3) as (_ & K). clear H3 u u'.
        assert (E1 : f_entries (w_fs w2) t = Some (EFile i)) by (rewrite (proj1 H2), (proj1 Cr), N.eqb_refl; reflexivity).
        destruct K as [(_ & K)|(t' & Et' & _ & _ & K)]; [exfalso; destruct (K t Et); congruence|].
        assert (t' = t) by congruence. subst t'.
        destruct K as [(A & B & D)|(A & B & D)].
        -- assert (Gw3 : grows w1 w3).
           { destruct H2 as (Q1 & Q2 & Q3). constructor; unfold moments; rewrite ?A, ?B, ?D, ?Q1, ?Q2, ?Q3; auto; [apply extends_refl|]. intros u. right. assumption. }
           split; [eapply grows_trans; eassumption|]. split.
           { rewrite A, (proj1 H2). eapply C; eassumption. }
           right. right. exists e. split; [reflexivity|]. right. exists q, t. split; [exact Eo|]. split; [exact Et|]. split; [exact (proj1 F)|]. rewrite D, (proj2 (proj2 H2)), Er. reflexivity.
        -- destruct H2 as (Q1 & Q2 & Q3). rewrite Q1 in A. pose proof (created_unlink _ _ _ _ _ F Cr) as Fe. rewrite <- A in Fe.
           split.
           { constructor.
             - apply fs_eq_wf, Fe.
             - apply fs_eq_extends, Fe.
             - unfold moments at 1. rewrite B. intros g [<-|Ig]; [right; apply fs_eq_extends, Fe|]. unfold moments in Ig. rewrite Q1, Q2 in Ig. apply (g_moments _ _ Gw). exact Ig.
             - intros g Ig. right. rewrite B. unfold moments. rewrite Q1, Q2. apply P1, Ig.
             - rewrite D, Q3, Er. auto. }
           split; [intros u; rewrite (proj1 Fe); auto|]. right. right. exists e. split; [reflexivity|]. left. exact Fe.
  - destruct (attempt_spec entry_of lib Hlib _ _ _ _ _ H1) as [(_ & [K|(x & K & _)])|(q & t & i & out & _ & _ & _ & _ & _ & _ & _ & _ & [K|(x & K & _)])]; discriminate K.
  - destruct (attempt_spec entry_of lib Hlib _ _ _ _ _ H1) as [(Q & _)|(q & t & i & out & Eo & Et & F & Cr & Er & P1 & P2 & Op & _)].
    + split; [apply same_grows, Q|]. split; [rewrite (proj1 Q); auto|]. left. reflexivity.
    + split.
      { constructor; [intros W; eapply created_wf; eassumption|eapply created_extends; eassumption| |exact P1|rewrite Er; auto].
        intros g Ig. destruct (P2 g Ig) as [I|(o & I)]; [auto|right; eapply created_extends; eassumption]. }
      split; [eapply C; eassumption|]. left. reflexivity.
Qed.
Lemma step_spec {k n} st d w r w' : step entry_of lib k n st false d w r w' ->
  grows w w' /\
  (forall t, f_entries (w_fs w') t <> None -> f_entries (w_fs w) t <> None \/ exists q, s_output st = Ok (OFile q) /\ entry_of q = Some t) /\
  (r = Panic \/
   (r = Ok (input_cleanup (s_input st), []) /\ opened_plain entry_of (w_fs w) (s_input st) /\
    ((same_files w w' /\ s_output st = Ok OStdout) \/ converted st d (w_fs w) (w_fs w'))) \/
   (exists e, r = Ok ([], [e]) /\ failed st w w')).
Proof.
  intros H. destruct (step_spec_full _ _ _ _ _ H) as (G & A & [K|[K|(e & -> & K)]]); (split; [exact G|]); (split; [exact A|]); [auto..|]. right. right. exists e. split; [reflexivity|].
  destruct K as [K|(q & t & K1 & K2 & K3 & K4)]; [left; exact K|]. right. exists q, t. do 3 (split; [assumption|]). rewrite K4. left. reflexivity.
Qed.

(** ** The loop *)

Lemma converted_extends st d f g h : converted st d f g -> extends g h -> converted st d f h.
Proof. intros (q & t & b & A & B & C & D & E) X. exists q, t, b. do 4 (split; [assumption|]). eapply has_extends; eassumption. Qed.

(** Only the output of [st] is new in [g]. *)
Definition adds (st : io_stream) (f g : fs) : Prop :=
  forall t, f_entries g t <> None -> f_entries f t <> None \/ exists q, s_output st = Ok (OFile q) /\ entry_of q = Some t.
(** What each stream came to, in a loop from [w] to [w']. *)
Inductive came_to (d : direction_opts) : list io_stream -> world -> list path -> list cerr -> world -> Prop :=
| ct_nil w w' : same_files w w' -> came_to d [] w [] [] w'
| ct_ok st l w w1 cbs errs w' : grows w w1 -> adds st (w_fs w) (w_fs w1) -> opened_plain entry_of (w_fs w) (s_input st) ->
    (same_files w w1 /\ s_output st = Ok OStdout) \/ converted st d (w_fs w) (w_fs w1) ->
    came_to d l w1 cbs errs w' -> came_to d (st :: l) w (input_cleanup (s_input st) ++ cbs) errs w'
| ct_fail st l w w1 e cbs errs w' : grows w w1 -> adds st (w_fs w) (w_fs w1) -> failed st w w1 -> came_to d l w1 cbs errs w' -> came_to d (st :: l) w cbs (e :: errs) w'.

Lemma came_to_start d l : forall w0 w cbs errs w', same_files w0 w -> came_to d l w cbs errs w' -> came_to d l w0 cbs errs w'.
Proof.
  intros w0 w cbs errs w' Q H. destruct H as [w w' Q'|st l w w1 cbs errs w' G A O K H|st l w w1 e cbs errs w' G A K H].
  - apply ct_nil. eapply same_trans; eassumption.
  - eapply ct_ok; [eapply grows_trans; [apply same_grows, Q|exact G]|rewrite <- (proj1 Q); exact A|rewrite <- (proj1 Q); exact O| |exact H].
    destruct K as [[K1 K2]|K]; [left; split; [eapply same_trans; eassumption|exact K2]|right; rewrite <- (proj1 Q); exact K].
  - eapply ct_fail; [eapply grows_trans; [apply same_grows, Q|exact G]|rewrite <- (proj1 Q); exact A| |exact H]. destruct K as [K|K]; [left|right]; rewrite <- (proj1 Q); exact K.
Qed.

Lemma process_spec {k n} d l : forall w r w', process entry_of lib k n l false d w r w' ->
  grows w w' /\
  (forall t, f_entries (w_fs w') t <> None -> f_entries (w_fs w) t <> None \/
     exists st q, In st l /\ s_output st = Ok (OFile q) /\ entry_of q = Some t) /\
  (r <> Panic -> forall t, f_entries (w_fs w') t <> None -> f_entries (w_fs w) t <> None \/ In t (w_refused w') \/
     exists st, In st l /\ exists q b, s_output st = Ok (OFile q) /\ entry_of q = Some t /\ reads entry_of (w_fs w') (s_input st) b /\ has_conversion entry_of lib d b (w_fs w') q) /\
  (forall cbs errs, r = Ok (cbs, errs) -> came_to d l w cbs errs w').
Proof.
  revert k. induction l as [|st l IH]; intros k w r w' H.
  { destruct H as [-> ->]. split; [apply same_grows, same_refl|]. split; [auto|]. split; [auto|]. intros cbs errs [= <- <-]. apply ct_nil, same_refl. }
  cbn [process] in H.
  destruct H as [([c0 e0] & w1 & H1 & H)|[(e & H1 & ->)|(H1 & ->)]];
    destruct (step_spec _ _ _ _ _ H1) as (G1 & N1 & K1).
  2:{ exfalso. destruct K1 as [K|[(K & _)|(e' & K & _)]]; discriminate K. }
  2:{ split; [exact G1|]. split; [|split; [congruence|discriminate]]. intros t Ht. destruct (N1 t Ht) as [I|(q & I)]; [auto|]. right. exists st, q. split; [left; reflexivity|exact I]. }
  assert (N1' : forall t, f_entries (w_fs w1) t <> None -> f_entries (w_fs w) t <> None \/ In t (w_refused w1) \/
     exists q b, s_output st = Ok (OFile q) /\ entry_of q = Some t /\ reads entry_of (w_fs w1) (s_input st) b /\ has_conversion entry_of lib d b (w_fs w1) q).
  { intros t Ht. destruct (N1 t Ht) as [I|(q & Eo & Et)]; [auto|]. destruct K1 as [K|[(_ & _ & [(Q & _)|(q' & t' & b & Eo' & Et' & _ & Rb & Hb)])|(e & _ & K)]].
    - discriminate K.
    - left. rewrite (proj1 Q) in Ht. exact Ht.
    - right. right. exists q', b. split; [exact Eo'|]. assert (q' = q) by congruence. subst q'. split; [exact Et|]. split; [|exact Hb]. eapply reads_extends; [exact Rb|exact (g_now _ _ G1)].
    - destruct K as [K|(q' & t' & Eo' & Et' & _ & I)]; [left; rewrite <- (proj1 K); exact Ht|]. right. left. congruence. }
  destruct H as [(u & w2 & H2 & H)|[(e & H2 & ->)|(H2 & ->)]]; apply quiet_ui in H2.
  2,3: pose proof (grows_trans _ _ _ G1 (same_grows _ _ H2)) as G2; split; [exact G2|]; destruct H2 as (Q1 & Q2 & Q3); rewrite Q1, Q3; split; [|split; [|discriminate]].
  2,4: intros t Ht; destruct (N1 t Ht) as [I|(q & I)]; [auto|]; right; exists st, q; split; [left; reflexivity|exact I].
  2,3: intros _ t Ht; destruct (N1' t Ht) as [I|[I|I]]; [auto|auto|]; right; right; exists st; split; [left; reflexivity|exact I].
  assert (HP : forall r3 w3, process entry_of lib (S k) n l false d w2 r3 w3 -> 
    grows w w3 /\
    (forall t, f_entries (w_fs w3) t <> None -> f_entries (w_fs w) t <> None \/
       exists st0 q, In st0 (st :: l) /\ s_output st0 = Ok (OFile q) /\ entry_of q = Some t) /\
    (r3 <> Panic -> forall t, f_entries (w_fs w3) t <> None -> f_entries (w_fs w) t <> None \/ In t (w_refused w3) \/
       exists st0, In st0 (st :: l) /\ exists q b, s_output st0 = Ok (OFile q) /\ entry_of q = Some t /\ reads entry_of (w_fs w3) (s_input st0) b /\ has_conversion entry_of lib d b (w_fs w3) q) /\
    (forall cbs errs, r3 = Ok (cbs, errs) -> came_to d (st :: l) w (c0 ++ cbs) (e0 ++ errs) w3)).
  { intros r3 w3 H3. destruct (IH _ _ _ _ H3) as (G3 & N3 & N3' & K3).
    assert (G13 : grows w1 w3) by (eapply grows_trans; [apply same_grows, H2|exact G3]).
    split; [eapply grows_trans; eassumption|]. rewrite (proj1 H2) in N3, N3'. split.
    { intros t Ht. destruct (N3 t Ht) as [I|(st0 & q & I0 & I)]; [|right; exists st0, q; split; [right; exact I0|exact I]].
      destruct (N1 t I) as [I'|(q & I')]; [auto|]. right. exists st, q. split; [left; reflexivity|exact I']. }
    split.
    { intros Nr t Ht. destruct (N3' Nr t Ht) as [I|[I|(st0 & I0 & I)]]; [|auto|right; right; exists st0; split; [right; exact I0|exact I]].
      destruct (N1' t I) as [I'|[I'|(q & b & Eo & Et & Rb & Hb)]]; [auto|right; left; apply (g_refused _ _ G13), I'|].
      right. right. exists st. split; [left; reflexivity|]. exists q, b. split; [exact Eo|]. split; [exact Et|]. split; [eapply reads_extends; [exact Rb|exact (g_now _ _ G13)]|].
      eapply has_extends; [exact Hb|exact (g_now _ _ G13)]. }
    intros cbs errs ->. pose proof (came_to_start _ _ _ _ _ _ _ H2 (K3 _ _ eq_refl)) as Z.
    destruct K1 as [K|[(K & Op & K1)|(e & K & K1)]]; [discriminate K|injection K as -> ->|injection K as -> ->].
    - cbn [app]. eapply ct_ok; eassumption.
    - cbn [app]. eapply ct_fail; eassumption. }
  destruct H as [([c1 e1] & w3 & H3 & H)|[(e & H3 & ->)|(H3 & ->)]].
  - destruct H as [-> ->]. destruct (HP _ _ H3) as (A & B & C & D). do 2 (split; [assumption|]). split; [intros _; apply C; discriminate|]. intros cbs errs [= <- <-]. apply D. reflexivity.
  - destruct (HP _ _ H3) as (A & B & C & D). do 2 (split; [assumption|]). split; [intros _; apply C; discriminate|discriminate].
  - destruct (HP _ _ H3) as (A & B & C & D). do 2 (split; [assumption|]). split; [congruence|discriminate].
Qed.

(** Inputs to clean up were converted. *)
Lemma came_to_grows d l w cbs errs w' : came_to d l w cbs errs w' -> grows w w'.
Proof. induction 1; [apply same_grows; assumption|eapply grows_trans; eassumption..]. Qed.
Lemma came_to_cbs d l w cbs errs w' : came_to d l w cbs errs w' -> forall p, In p cbs ->
  exists st s b, In st l /\ s_input st = IFile p /\ entry_of p = Some s /\ plain_file (w_fs w') s b /\
    (s_output st = Ok OStdout \/ exists q, s_output st = Ok (OFile q) /\ has_conversion entry_of lib d b (w_fs w') q).
Proof.
  induction 1 as [w w' Q|st l w w1 cbs errs w' G A Op K H IH|st l w w1 e cbs errs w' G A K H IH]; intros p I.
  - destruct I.
  - apply in_app_or in I as [I|I].
    + unfold input_cleanup in I. destruct (s_input st) as [p'| |] eqn:Ei; try contradiction I. destruct I as [<-|[]].
      pose proof (came_to_grows _ _ _ _ _ _ H) as G'. pose proof (extends_trans _ _ _ (g_now _ _ G) (g_now _ _ G')) as X.
      destruct K as [(_ & K)|(q & t & b & Eo & Et & _ & Rb & Hb)].
      * destruct (Op p' eq_refl) as (s & b & Es & Ps). exists st, s, b. split; [left; reflexivity|]. split; [exact Ei|]. split; [exact Es|]. split; [eapply plain_extends; eassumption|]. auto.
      * destruct (Rb p' Ei) as (s & Es & Ps). exists st, s, b. split; [left; reflexivity|]. split; [exact Ei|]. split; [exact Es|].
        split; [eapply plain_extends; eassumption|]. right. exists q. split; [exact Eo|]. eapply has_extends; [exact Hb|exact (g_now _ _ G')].
    + destruct (IH p I) as (st' & s & b & I' & Z). exists st', s, b. split; [right; exact I'|exact Z].
  - destruct (IH p I) as (st' & s & b & I' & Z). exists st', s, b. split; [right; exact I'|exact Z].
Qed.

(** ** Removing the originals *)

(** [g] is [f] without some of the entries [l]. *)
Definition removed (l : list N) (f g : fs) : Prop :=
  (forall s, intact f g s \/ (In s l /\ f_entries g s = None)) /\ (forall s, f_entries g s <> None -> f_entries f s <> None).
Lemma removed_refl l f : removed l f f.
Proof. split; [|auto]. intros s. left. split; auto. Qed.
Lemma unlink_plain f s b : wf_fs f -> plain_file f s b -> wf_fs (unlink f s) /\ f_entries (unlink f s) s = None /\
  forall t, t <> s -> intact f (unlink f s) t.
Proof.
  intros [W1 W2] (i & A & B). unfold unlink. rewrite A, B. cbn [n_links]. change (1 <=? 1) with true. cbn iota. unfold wf_fs, intact, update. cbn [f_entries f_nodes].
  assert (U : forall t, t <> s -> f_entries f t <> Some (EFile i)).
  { intros t D E. pose proof (W2 s t i _ A E (fun e => D (eq_sym e)) B) as L. cbn in L. lia. }
  split; [|split].
  - split.
    + intros t j. destruct (N.eqb_spec t s) as [->|D]; [discriminate|]. intros E. destruct (N.eqb_spec j i) as [->|]; [exfalso; exact (U t D E)|]. eapply W1, E.
    + intros t u j n. destruct (N.eqb_spec t s) as [->|D]; [discriminate|]. destruct (N.eqb_spec u s) as [->|D']; [discriminate|].
      intros E1 E2 D2. destruct (N.eqb_spec j i) as [->|]; [discriminate|]. intros En. exact (W2 t u j n E1 E2 D2 En).
  - rewrite N.eqb_refl. reflexivity.
  - intros t D. destruct (N.eqb_spec t s) as [->|_]; [contradiction D; reflexivity|]. split; [reflexivity|].
    intros j E. destruct (N.eqb_spec j i) as [->|]; [exfalso; exact (U t D E)|reflexivity].
Qed.

(** All the files to be removed are still there, or already removed. *)
Lemma remove_all_spec force l f0 : (forall s, In s l -> exists b, plain_file f0 s b) ->
  forall cbs w r w', (forall p s, In p cbs -> entry_of p = Some s -> In s l) ->
  remove_all entry_of cbs force w r w' -> wf_fs (w_fs w) -> removed l f0 (w_fs w) ->
  r = Ok tt /\ removed l f0 (w_fs w') /\ wf_fs (w_fs w') /\
  (forall g, In g (moments w') -> In g (moments w) \/ removed l f0 g) /\
  (forall g, In g (moments w) -> In g (moments w')).
Proof.
  intros Hl. induction cbs as [|p cbs IH]; intros w r w' Hc H W R.
  { destruct H as [-> ->]. auto 8. }
  cbn [remove_all] in H.
  assert (K : forall r1 w1, remove_cb entry_of p force w r1 w1 -> r1 = Ok tt /\ removed l f0 (w_fs w1) /\ wf_fs (w_fs w1) /\
    (forall g, In g (moments w1) -> In g (moments w) \/ removed l f0 g) /\ (forall g, In g (moments w) -> In g (moments w1))).
  { intros r1 w1 H1. destruct (remove_cb_spec _ _ _ _ _ _ H1) as (-> & K). split; [reflexivity|].
    destruct K as [(Q & _)|(s & Es & N1 & N2 & [(A & B & D)|(A & B & D)])].
    - pose proof (moments_same _ _ Q) as M. destruct Q as (Q1 & _). rewrite Q1, M. auto.
    - assert (M : moments w1 = moments w) by (unfold moments; congruence). rewrite A, M. auto.
    - assert (Is : In s l) by (eapply Hc; [left; reflexivity|exact Es]). destruct (Hl s Is) as (b & Pb).
      destruct R as [R1 R2]. assert (Ps : plain_file (w_fs w) s b).
      { destruct (R1 s) as [[I1 I2]|[_ I]]; [|contradiction N1]. destruct Pb as (i & P1 & P2). exists i. split; [congruence|]. rewrite I2; assumption. }
      destruct (unlink_plain _ _ _ W Ps) as (W' & U1 & U2). rewrite <- A in W', U1, U2.
      assert (R' : removed l f0 (w_fs w1)).
      { split.
        - intros t. destruct (N.eq_dec t s) as [->|D']; [right; auto|]. destruct (U2 t D') as [V1 V2]. destruct (R1 t) as [[I1 I2]|[I1 I2]].
          + left. split; [congruence|]. intros i Ei. rewrite V2 by congruence. auto.
          + right. split; [exact I1|congruence].
        - intros t Nt. destruct (N.eq_dec t s) as [->|D']; [congruence|]. destruct (U2 t D') as [V1 _]. apply R2. congruence. }
      split; [exact R'|]. split; [exact W'|]. unfold moments at 1 4. rewrite B. split; [intros g [<-|Ig]; auto|intros g Ig; right; exact Ig]. }
  destruct H as [(u & w1 & H1 & H)|[(e & H1 & ->)|(H1 & ->)]]; destruct (K _ _ H1) as (E & R1 & W1 & M1 & M1'); try discriminate E.
  destruct (IH w1 r w') as (-> & R2 & W2 & M2 & M2'); [intros p' s I; apply Hc; right; exact I|exact H|exact W1|exact R1|].
  split; [reflexivity|]. split; [exact R2|]. split; [exact W2|]. split; [|auto].
  intros g Ig. destruct (M2 g Ig) as [I|I]; [apply M1, I|auto].
Qed.
End WithEnvironment.

(** Proofs about runs in which the operating system does not fail. *)
From Coq.Strings Require Import Byte String.
From Coq Require Import List NArith ZArith Bool PeanoNat Lia.
From Verif Require Import Base BaseFacts Shamir Errors Io HeaderIoSpec StreamSpec Text Util CliErrors Crypto HeaderCrypto CredSpec FileCrypto Progress ProgressSpec ProgressProofs Ui UiSpec UiProofs Paths Cli Fs Commands FsSpec FsProofs ConvProofs FsProofs2 FsProofs3 FsProofs4 FsProofs5 FsProofs8.
Import ListNotations.
Local Open Scope N_scope.

Section Sound.
Variable entry_of : names.
Variable lib : crypto_lib.
Hypothesis Hlib : lib_ok lib.
Hypothesis sound : faulty entry_of = false.

Lemma no_fail (P : Prop) : P -> ~ fails entry_of P.
Proof. intros H [F|N]; [congruence|exact (N H)]. Qed.

Lemma open_file_ready p s b w r w' : entry_of p = Some s -> plain_file (w_fs w) s b -> open_file entry_of p w r w' ->
  exists i, f_entries (w_fs w) s = Some (EFile i) /\ f_nodes (w_fs w) i = Some (mkNode true b 1) /\ r = Ok (ReadNode i, mkMeta FRegular 1) /\ w' = w.
Proof.
  intros Es (i & Ei & En) H. exists i. split; [exact Ei|]. split; [exact En|].
  assert (F : follow max_links (w_fs w) s = Some s) by (unfold max_links; cbn [follow]; rewrite Ei; reflexivity).
  assert (M : metadata_of (w_fs w) s = Some (mkMeta FRegular 1)) by (unfold metadata_of; rewrite Ei, En; reflexivity).
  assert (A : forall r1 w1, open_read entry_of p w r1 w1 -> r1 = Ok (ReadNode i) /\ w1 = w).
  { intros r1 w1 [-> [[_ X]|(s' & t & E1 & E2 & K)]]; [exfalso; revert X; apply no_fail; eauto 8|]. assert (s' = s) by congruence. subst s'.
    assert (t = s) by congruence. subst t. destruct K as [(j & Ej & ->)|(Ej & _)]; [|congruence]. split; [congruence|reflexivity]. }
  assert (B : forall r1 w1, symlink_metadata entry_of p w r1 w1 -> r1 = Ok (mkMeta FRegular 1) /\ w1 = w).
  { intros r1 w1 [-> [[_ X]|(s' & md & E1 & E2 & ->)]]; [exfalso; revert X; apply no_fail; eauto|]. assert (s' = s) by congruence. subst s'. split; congruence. }
  unfold open_file in H. destruct H as [(x & w1 & H1 & H)|[(e & H1 & _)|(H1 & _)]]; apply A in H1 as [E1 ->]; try discriminate E1. injection E1 as ->.
  destruct H as [(y & w1 & H1 & H)|[(e & H1 & _)|(H1 & _)]]; apply B in H1 as [E1 ->]; try discriminate E1. injection E1 as ->.
  destruct H as [(y & w1 & [_ ->] & [-> ->])|[(e & [E _] & _)|([E _] & _)]]; [auto|discriminate E..].
Qed.
Lemma open_input_ready p s b w r w' : entry_of p = Some s -> plain_file (w_fs w) s b -> open_input entry_of (IFile p) false w r w' ->
  exists i, f_entries (w_fs w) s = Some (EFile i) /\ f_nodes (w_fs w) i = Some (mkNode true b 1) /\ r = Ok (ReadNode i) /\ w' = w.
Proof.
  intros Es P H. cbn [open_input] in H.
  destruct H as [([rd md] & w1 & H1 & H)|[(e & H1 & _)|(H1 & _)]]; destruct (open_file_ready _ _ _ _ _ _ Es P H1) as (i & A & B & E & ->); try discriminate E.
  injection E as -> ->. exists i. split; [exact A|]. split; [exact B|].
  do 3 (destruct H as [(? & ? & [_ ->] & H)|[(? & [E _] & _)|([E _] & _)]]; [|discriminate E..]). destruct H as [-> ->]. auto.
Qed.
Lemma create_ready q t w r w' : entry_of q = Some t -> f_entries (w_fs w) t = None -> (exists i, unused (w_fs w) i) -> create_new entry_of q w r w' ->
  exists i, fresh (w_fs w) t i /\ r = Ok (WriteNode i) /\ w' = set_fs w (add_file (w_fs w) t i).
Proof.
  intros Et Nt (i & U) [(_ & _ & X)|(t' & i' & E & _ & U' & -> & ->)]; [exfalso; revert X; apply no_fail; eauto 8|].
  assert (t' = t) by congruence. subst t'. exists i'. split; [split; [exact Nt|exact U']|]. auto.
Qed.
Lemma panics_stalls rd src : progress_panics entry_of rd src -> stalls entry_of = true.
Proof.
  intros (start & filesize & events & (_ & _ & Q) & E). destruct (stalls entry_of); [reflexivity|]. destruct (Q eq_refl) as (B & C & D).
  destruct (report_ok start filesize events B (points_sorted start filesize events C (or_intror D))) as (l & E' & _). congruence.
Qed.
Lemma convert_ready d j b t i f w r w' : convertible lib d b -> fresh f t i -> w_fs w = add_file f t i -> f_nodes f j = Some (mkNode true b 1) ->
  convert entry_of lib d (ReadNode j) (WriteNode i) w r w' ->
  r = Ok tt \/ (r = Panic /\ stalls entry_of = true).
Proof.
  intros Cv (_ & Ni & _) Ew Ej (er & src & room & fl & r0 & snk & k & Hr & Hk & Hp & Hc & K). destruct (Hk sound) as [-> ->].
  assert (Dj : j <> i) by congruence.
  unfold provides in Hp. rewrite Ew in Hp. cbn [add_file f_nodes] in Hp. unfold update in Hp. destruct (N.eqb_spec j i) as [->|_]; [contradiction Dj; reflexivity|].
  rewrite Ej in Hp. specialize (Hp eq_refl). assert (X : WriteNode i <> WriteNode j) by congruence. specialize (Hp X). cbn [n_content] in Hp.
  destruct (ends_in_error src) eqn:Ee; [destruct Hp as [Y _]; congruence|].
  destruct K as [(-> & _)|(-> & P & _)]; [|right; split; [reflexivity|eapply panics_stalls, P]]. left. rewrite (Cv er src r0 snk Hr Ee Hp Hc). reflexivity.
Qed.

Lemma ignore_ok {A} (m : act A) u : fst (m u) <> Panic -> fst (ignore m u) = Ok tt.
Proof. unfold ignore. destruct (m u) as [[| |] ?]; cbn; congruence. Qed.
Lemma println_not_panic v t u : fst (ui_println v t u) <> Panic.
Proof. unfold ui_println, emit. destruct (will_print _ _); [destruct (u_room u) as [[|]|]|]; discriminate. Qed.

Lemma step_ready {k n} st d w r w' p s b q t : s_input st = IFile p -> entry_of p = Some s -> plain_file (w_fs w) s b -> convertible lib d b ->
  s_output st = Ok (OFile q) -> entry_of q = Some t -> f_entries (w_fs w) t = None -> (exists i, unused (w_fs w) i) ->
  step entry_of lib k n st false d w r w' ->
  (r = Panic /\ stalls entry_of = true) \/
  (r = Ok ([p], []) /\ exists i out, fresh (w_fs w) t i /\ created (w_fs w) t i out (w_fs w') /\ is_conversion lib d b out).
Proof.
  intros Ei Es Pl Cv Eo Et Nt U H.
  assert (A : forall ra wa, attempt entry_of lib k n st false d w ra wa ->
    (ra = Panic /\ stalls entry_of = true) \/ exists cb, ra = Ok (Ok tt, cb)).
  { clear H. intros ra wa H. unfold attempt in H.
    match type of H with io_bind (io_try ?m) _ _ _ _ => set (opening := m) in H end.
    assert (O : forall ro wo, opening w ro wo -> exists i j, fresh (w_fs w) t i /\ f_nodes (w_fs w) j = Some (mkNode true b 1) /\
       ro = Ok (ReadNode j, WriteNode i, Some q) /\ w_fs wo = add_file (w_fs w) t i).
    { clear H. intros ro wo H. unfold opening in H.
      destruct H as [(x & w1 & H1 & H)|[(e & [H1 _] & _)|([H1 _] & _)]];
        [|rewrite ignore_ok in H1 by apply println_not_panic; discriminate H1..].
      apply quiet_ui in H1. rewrite Eo, Ei in H. destruct H as [(o & w2 & [E ->] & H)|[(e & [E _] & _)|([E _] & _)]]; [injection E as ->|discriminate E..].
      rewrite <- (proj1 H1) in Pl, Nt, U. pose proof Pl as (j & Pj & Pj').
      destruct H as [(rd & w2 & H2 & H)|[(e & H2 & _)|(H2 & _)]]; destruct (open_input_ready _ _ _ _ _ _ Es Pl H2) as (j' & A & B & E & ->); try discriminate E.
      injection E as ->. cbn [open_output] in H.
      destruct H as [(wr & w2 & H3 & H)|[(e & H3 & _)|(H3 & _)]]; destruct (create_ready _ _ _ _ _ Et Nt U H3) as (i & F & E & ->); try discriminate E.
      injection E as ->. destruct H as [-> ->]. rewrite (proj1 H1) in F, B. exists i, j'. split; [exact F|]. split; [exact B|]. split; [reflexivity|].
      cbn [set_fs w_fs]. rewrite (proj1 H1). reflexivity. }
    clearbody opening.
    destruct H as [(op & w1 & H1 & H)|[(e & H1 & _)|(H1 & _)]].
    2:{ destruct H1 as [(x & _ & _ & E)|(_ & E)]; discriminate E. }
    2:{ destruct H1 as [(x & _ & _ & E)|(H1 & _)]; [discriminate E|]. destruct (O _ _ H1) as (i & j & _ & _ & E & _). discriminate E. }
    destruct H1 as [(x & Nx & H1 & E)|(_ & E)]; [|discriminate E]. injection E as ->. destruct (O _ _ H1) as (i & j & F & Ej & -> & Ew). clear O H1.
    destruct H as [(y & w2 & H2 & [-> ->])|[(e & H2 & _)|(H2 & ->)]].
    - destruct H2 as [(z & Nz & H2 & E)|(_ & E)]; [injection E as ->|discriminate E]. right. exists (Some q).
      destruct (convert_ready _ _ _ _ _ _ _ _ _ Cv F Ew Ej H2) as [->|(-> & _)]; [reflexivity|contradiction Nz; reflexivity].
    - destruct H2 as [(z & _ & _ & E)|(_ & E)]; discriminate E.
    - left. split; [reflexivity|]. destruct H2 as [(z & _ & _ & E)|(H2 & _)]; [discriminate E|].
      destruct (convert_ready _ _ _ _ _ _ _ _ _ Cv F Ew Ej H2) as [E|(_ & K)]; [discriminate E|exact K]. }
  unfold step in H. destruct H as [([res cb] & w1 & H1 & H)|[(e & H1 & _)|(H1 & ->)]].
  - destruct (A _ _ H1) as [(E & _)|(cb' & E)]; [discriminate E|]. injection E as -> <-.
    destruct H as [-> ->]. right. split; [unfold input_cleanup; rewrite Ei; reflexivity|].
    destruct (attempt_spec entry_of lib Hlib _ _ _ _ _ H1) as [(_ & [K|(x & E & K & _)])|(q' & t' & i & out & Eo' & Et' & F & C & _ & _ & _ & _ & [K|(x & E & _ & K)])]; try discriminate K.
    + injection E as <- _. destruct (K eq_refl) as [K1 _]. congruence.
    + injection E as <- _. destruct (K eq_refl) as (b' & Cb & Rb). assert (q' = q) by congruence. subst q'. assert (t' = t) by congruence. subst t'.
      exists i, out. split; [exact F|]. split; [exact C|]. destruct (Rb p Ei) as (s' & Es' & P'). assert (s' = s) by congruence. subst s'.
      destruct Pl as (j & A1 & A2), P' as (j' & B1 & B2). assert (j' = j) by congruence. subst j'. assert (b' = b) by congruence. subst b'. exact Cb.
  - destruct (A _ _ H1) as [(E & _)|(cb' & E)]; discriminate E.
  - left. split; [reflexivity|]. destruct (A _ _ H1) as [(_ & K)|(cb' & E)]; [exact K|discriminate E].
Qed.

(** ** The loop *)

Lemma spacious_created f t i out g : spacious f -> created f t i out g -> spacious g.
Proof.
  intros S [C1 C2] l. destruct (S (i :: l)) as (j & [U1 U2] & Nj). exists j. assert (D : j <> i) by (intros ->; apply Nj; left; reflexivity).
  split; [split|intros I; apply Nj; right; exact I].
  - rewrite C2. destruct (N.eqb_spec j i); [contradiction|exact U1].
  - intros u. rewrite C1. destruct (u =? t); [congruence|apply U2].
Qed.
Lemma ready_created d f t i out g st : ready entry_of lib d f st -> fresh f t i -> created f t i out g ->
  (forall q, s_output st = Ok (OFile q) -> entry_of q <> Some t) -> ready entry_of lib d g st.
Proof.
  intros (p & s & b & q & t' & A1 & A2 & A3 & A4 & A5 & A6 & A7) F C D. exists p, s, b, q, t'. do 2 (split; [assumption|]). split; [eapply plain_extends; [exact A3|eapply created_extends; eassumption]|].
  do 3 (split; [assumption|]). rewrite (proj1 C). destruct (N.eqb_spec t' t) as [->|]; [destruct (D q A5 A6)|exact A7].
Qed.
Lemma process_ready {k n} d l : forall w r w', process entry_of lib k n l false d w r w' -> works (w_ui w) -> spacious (w_fs w) ->
  (forall st, In st l -> ready entry_of lib d (w_fs w) st) -> distinct_outputs entry_of l ->
  (r = Panic /\ stalls entry_of = true) \/
  exists cbs, r = Ok (cbs, []) /\ works (w_ui w') /\ extends (w_fs w) (w_fs w') /\ (forall st p, In st l -> s_input st = IFile p -> In p cbs) /\
    forall st, In st l -> exists p s b q, s_input st = IFile p /\ entry_of p = Some s /\ plain_file (w_fs w) s b /\ s_output st = Ok (OFile q) /\ has_conversion entry_of lib d b (w_fs w') q.
Proof.
  revert k. induction l as [|st l IH]; intros k w r w' H Wk Sp Rd Di.
  { destruct H as [-> ->]. right. exists []. split; [reflexivity|]. split; [exact Wk|]. split; [apply extends_refl|]. split; [intros st p []|intros st []]. }
  pose proof (Rd st (or_introl eq_refl)) as (p & s & b & q & t & Ei & Es & Pl & Cv & Eo & Et & Nt).
  assert (U : exists i, unused (w_fs w) i) by (destruct (Sp []) as (i & I & _); eauto).
  cbn [process] in H. destruct H as [([c0 e0] & w1 & H1 & H)|[(e & H1 & _)|(H1 & ->)]];
    destruct (step_ready st d _ _ _ _ _ _ _ _ Ei Es Pl Cv Eo Et Nt U H1) as [(E & Pp)|(E & i & out & F & C & Ic)]; try discriminate E.
  2:{ left. auto. }
  injection E as -> ->. pose proof (sim_works _ _ _ _ (sim_step entry_of lib st d) H1 Wk) as Wk1.
  destruct H as [(u & w2 & H2 & H)|[(e & [E _] & _)|([E _] & _)]].
  2:{ exfalso. pose proof (println_result [] (w_ui w1)) as Z. rewrite <- E in Z. destruct Z as [_ Z]. exact (Z Wk1). }
  2:{ exfalso. exact (println_not_panic 0 [] (w_ui w1) (eq_sym E)). }
  pose proof (sim_works _ _ _ _ (sim_ui _ (act_println 0 [])) H2 Wk1) as Wk2. pose proof (quiet_ui _ _ _ _ H2) as Q2. clear H2.
  rewrite <- (proj1 Q2) in C. pose proof (created_extends _ _ _ _ _ F C) as X2.
  assert (Dl : forall st' q', In st' l -> s_output st' = Ok (OFile q') -> entry_of q' <> Some t).
  { intros st' q' I' E'. apply in_split in I' as (l1 & l2 & ->). eapply (Di [] st l1 st' l2); [reflexivity|exact Eo|exact E'|exact Et]. }
  assert (Tl : forall r3 w3, process entry_of lib (S k) n l false d w2 r3 w3 ->
    (r3 = Panic /\ stalls entry_of = true) \/
    exists cbs, r3 = Ok (cbs, []) /\ works (w_ui w3) /\ extends (w_fs w2) (w_fs w3) /\ (forall st p, In st l -> s_input st = IFile p -> In p cbs) /\
    forall st, In st l -> exists p s b q, s_input st = IFile p /\ entry_of p = Some s /\ plain_file (w_fs w) s b /\ s_output st = Ok (OFile q) /\ has_conversion entry_of lib d b (w_fs w3) q).
  { assert (B : forall st' p s b, In st' l -> s_input st' = IFile p -> entry_of p = Some s -> plain_file (w_fs w2) s b -> plain_file (w_fs w) s b).
    { intros st' p' s' b' I' Ei' Es' (j & P1 & P2). destruct (Rd st' (or_intror I')) as (p2 & s2 & b2 & _ & _ & A1 & A2 & A3 & _).
      assert (p2 = p') by congruence. subst p2. assert (s2 = s') by congruence. subst s2. pose proof (plain_extends _ _ _ _ A3 X2) as (j2 & B1 & B2). assert (j2 = j) by congruence. subst j2.
      assert (b2 = b') by congruence. subst b2. exact A3. }
    intros r3 w3 H3. destruct (IH _ _ _ _ H3 Wk2) as [(-> & Zs)|(cbs & -> & Z1 & Z2 & Z3 & Z4)].
    - eapply spacious_created; eassumption.
    - intros st' I'. eapply ready_created; [apply Rd; right; exact I'|exact F|exact C|intros q' E'; eapply Dl; eassumption].
    - intros l1 st1 l2 st2 l3 q1 q2 t1 ->. apply (Di (st :: l1) st1 l2 st2 l3). reflexivity.
    - left. auto.
    - right. exists cbs. split; [reflexivity|]. split; [exact Z1|]. split; [exact Z2|]. split; [exact Z3|]. intros st' I'. destruct (Z4 st' I') as (p' & s' & b' & q' & Y1 & Y2 & Y3 & Y4 & Y5).
      exists p', s', b', q'. split; [exact Y1|]. split; [exact Y2|]. split; [eapply B; eassumption|]. auto. }
  clear IH. destruct H as [([c1 e1] & w3 & H3 & H)|[(e & H3 & _)|(H3 & ->)]]; destruct (Tl _ _ H3) as [(E & Zs)|(cbs & E & Z1 & Z2 & Z3 & Z4)]; try discriminate E.
  - injection E as -> ->. destruct H as [-> ->]. right. exists (p :: cbs). split; [reflexivity|]. split; [exact Z1|]. split; [eapply extends_trans; eassumption|]. split.
    + intros st' p' [<-|I'] Ei'; [left; congruence|right; eapply Z3; eassumption].
    + intros st' [<-|I'].
      * exists p, s, b, q. do 4 (split; [assumption|]). eapply has_extends; [|exact Z2]. exists t, out. split; [exact Et|]. split; [eapply created_plain, C|exact Ic].
      * exact (Z4 st' I').
  - left. auto.
Qed.

(** ** Removal *)

Lemma remove_ready p force w r w' : remove_cb entry_of p force w r w' ->
  r = Ok tt /\ (forall s, entry_of p = Some s -> f_entries (w_fs w) s <> Some EDir -> f_entries (w_fs w') s = None) /\
  (forall s, f_entries (w_fs w) s <> Some EDir -> f_entries (w_fs w') s <> Some EDir) /\ (forall s, f_entries (w_fs w) s = None -> f_entries (w_fs w') s = None).
Proof.
  intros H. destruct (remove_cb_spec _ _ _ _ _ _ H) as (-> & K). split; [reflexivity|]. destruct K as [((Q & _) & K)|(s & Es & N1 & N2 & K)].
  - rewrite Q. split; [intros s Es Ns; destruct (K s Es); [assumption|contradiction]|]. auto.
  - assert (w_fs w' = unlink (w_fs w) s) as ->.
    { destruct K as [(A & B & R)|(A & _)]; [|exact A]. exfalso. unfold remove_cb in H.
      assert (Z : forall rr wr, remove_file entry_of p w rr wr -> w_refused wr = w_refused w).
      { intros rr wr X. unfold remove_file in X. rewrite Es in X. destruct (f_entries (w_fs w) s) as [[]|]; [destruct X as [(Fa & _)|[_ ->]]; [congruence|reflexivity]..|destruct X as [_ ->]; reflexivity|destruct X as [_ ->]; reflexivity]. }
      assert (Y : w_refused w' = w_refused w).
      { destruct H as [(x & w1 & H1 & H)|[(e & _ & E)|(_ & E)]]; try discriminate E.
        assert (w_refused w1 = w_refused w) as <- by (destruct H1 as [(y & _ & H1 & _)|(H1 & _)]; eapply Z, H1).
        destruct x as [[]|e|]; [destruct H as [_ ->]; reflexivity| |destruct H as [_ ->]; reflexivity]. destruct force; [destruct H as [_ ->]; reflexivity|].
        destruct H as [_ ->]. reflexivity. }
      rewrite Y in R. apply (f_equal (@length N)) in R. cbn in R. lia. }
    unfold unlink. cbn [f_entries]. unfold update. split; [|split].
    + intros s' Es' _. assert (s' = s) by congruence. subst s'. rewrite N.eqb_refl. reflexivity.
    + intros s' D. destruct (s' =? s); [discriminate|exact D].
    + intros s' D. destruct (s' =? s); [reflexivity|exact D].
Qed.
Lemma remove_all_ready force cbs : forall w r w', remove_all entry_of cbs force w r w' ->
  (forall p s, In p cbs -> entry_of p = Some s -> f_entries (w_fs w) s <> Some EDir) ->
  (forall p s, In p cbs -> entry_of p = Some s -> f_entries (w_fs w') s = None) /\ (forall s, f_entries (w_fs w) s = None -> f_entries (w_fs w') s = None).
Proof.
  induction cbs as [|p cbs IH]; intros w r w' H D; [destruct H as [_ ->]; split; [intros p s []|auto]|]. cbn [remove_all] in H.
  destruct H as [(u & w1 & H1 & H)|[(e & H1 & _)|(H1 & _)]]; destruct (remove_ready _ _ _ _ _ H1) as (E & A & B & C); try discriminate E.
  destruct (IH _ _ _ H) as [X Y]; [intros p' s' I' E'; apply B; eapply D; [right; exact I'|exact E']|].
  split; [|auto]. intros p' s' [<-|I'] Es; [|eapply X; eassumption]. apply Y, A; [exact Es|]. eapply D; [left; reflexivity|exact Es].
Qed.

(** ** Whole runs *)

Lemma delete_inv streams force d w r w' : crypt_streams entry_of lib streams DeleteFiles force d w r w' ->
  exists rp w1, process entry_of lib 0 (length streams) streams force d w rp w1 /\
  ((exists e, rp = Err e /\ r = Err e) \/ (rp = Panic /\ r = Panic) \/
   exists cbs errs, rp = Ok (cbs, errs) /\ exists r2, remove_all entry_of cbs force w1 r2 w').
Proof.
  intros H. destruct H as [([cbs errs] & w1 & H1 & H)|[(e & H1 & ->)|(H1 & ->)]]; [|eauto 8..].
  exists (Ok (cbs, errs)), w1. split; [exact H1|]. right. right. exists cbs, errs. split; [reflexivity|].
  assert (Z : forall rr ww, (match cbs with [] => io_ret tt | _ => let! should_delete := io_ret true in if should_delete : bool then remove_all entry_of cbs force else io_ret tt end) w1 rr ww ->
    exists r2, remove_all entry_of cbs force w1 r2 ww).
  { intros rr ww X. destruct cbs as [|p cbs]; [exists (Ok tt); destruct X as [_ ->]; split; reflexivity|].
    destruct X as [(b & w2 & [[= ->] ->] & X)|[(e & [E _] & _)|([E _] & _)]]; [eauto|discriminate E..]. }
  destruct H as [(u & w2 & H & [_ ->])|[(e & H & _)|(H & _)]]; eapply Z, H.
Qed.

Lemma crypt_ready streams policy d w r w' : crypt_streams entry_of lib streams policy false d w r w' -> wf_fs (w_fs w) -> works (w_ui w) -> spacious (w_fs w) ->
  (forall st, In st streams -> ready entry_of lib d (w_fs w) st) -> distinct_outputs entry_of streams ->
  (r = Panic /\ stalls entry_of = true) \/
  ((r = Ok tt \/ (policy = PromptUser /\ exists e, tty_error e /\ r = Err e)) /\
   (forall st, In st streams -> exists p s b q, s_input st = IFile p /\ entry_of p = Some s /\ plain_file (w_fs w) s b /\ s_output st = Ok (OFile q) /\ has_conversion entry_of lib d b (w_fs w') q) /\
   (policy = DeleteFiles -> forall st p s, In st streams -> s_input st = IFile p -> entry_of p = Some s -> f_entries (w_fs w') s = None)).
Proof.
  intros H W Wk Sp Rd Di. destruct (crypt_inv _ _ _ _ _ _ _ _ _ H) as (rp & w1 & Hp & K).
  destruct (process_ready d _ _ _ _ Hp Wk Sp Rd Di) as [(-> & Z)|(cbs & -> & Z1 & Z2 & Z3 & Z4)].
  { left. destruct K as [(e & E & _)|[(_ & -> & _)|(cbs & errs & E & _)]]; [discriminate E| |discriminate E]. auto. }
  right. destruct K as [(e & E & _)|[(E & _)|(cbs' & errs & E & K)]]; [discriminate E..|]. injection E as <- <-.
  assert (Pin : forall s, In s (entries entry_of cbs) -> exists b, plain_file (w_fs w1) s b).
  { intros s I. apply in_entries in I as (p & I & Ep). destruct (process_spec entry_of lib Hlib _ _ _ _ _ Hp) as (_ & _ & _ & C). specialize (C _ _ eq_refl).
    destruct (came_to_cbs _ _ _ _ _ _ _ _ C p I) as (st & s' & b & _ & _ & Es & P & _). exists b. congruence. }
  assert (Gw : grows w w1) by (eapply process_spec; eassumption).
  assert (Rm : removed (entries entry_of cbs) (w_fs w1) (w_fs w')).
  { destruct K as [(Q & _)|(w2 & Q & Hr & _ & _)]; [rewrite (proj1 Q); apply removed_refl|].
    destruct (remove_all_spec entry_of false _ (w_fs w1) Pin cbs w2 (Ok tt) w') as (_ & R & _); [intros p s I E; apply in_entries; eauto|exact Hr|rewrite (proj1 Q); apply (g_wf _ _ Gw), W|rewrite (proj1 Q); apply removed_refl|exact R]. }
  split; [|split].
  - destruct K as [(_ & [->|K])|(w2 & _ & _ & _ & ->)]; auto.
  - intros st I. destruct (Z4 st I) as (p & s & b & q & Y1 & Y2 & Y3 & Y4 & (t & c & Et & (i & C1 & C2) & Ic)). exists p, s, b, q. do 4 (split; [assumption|]).
    exists t, c. split; [exact Et|]. split; [|exact Ic]. exists i. destruct (proj1 Rm t) as [[J1 J2]|[J1 _]]; [split; [congruence|rewrite J2; assumption]|].
    exfalso. apply in_entries in J1 as (p' & J1 & Ep). destruct (Rd st I) as (p0 & s0 & b0 & q0 & t0 & _ & _ & _ & _ & A5 & A6 & A7).
    assert (q0 = q) by congruence. subst q0. assert (t0 = t) by congruence. subst t0.
    destruct (process_spec entry_of lib Hlib _ _ _ _ _ Hp) as (_ & _ & _ & C). specialize (C _ _ eq_refl).
    destruct (came_to_cbs _ _ _ _ _ _ _ _ C p' J1) as (st' & s' & b' & I' & Ei' & Es' & _). destruct (Z4 st' I') as (p2 & s2 & b2 & _ & B1 & B2 & (j & B3 & _) & _).
    assert (p2 = p') by congruence. subst p2. congruence.
  - intros -> st p s I Ei Es. destruct (delete_inv _ _ _ _ _ _ H) as (rp' & w1' & Hp' & K').
    destruct (process_ready d _ _ _ _ Hp' Wk Sp Rd Di) as [(-> & _)|(cbs' & -> & _ & Y2 & Y3 & Y4)].
    { destruct K' as [(e & E & _)|[(_ & ->)|(cbs' & errs & E & _)]]; [discriminate E| |discriminate E]. exfalso. destruct K as [(_ & [K|(_ & e & _ & K)])|(w2 & _ & _ & _ & K)]; discriminate K. }
    destruct K' as [(e & E & _)|[(E & _)|(cbs2 & errs & E & r2 & Hr)]]; [discriminate E..|]. injection E as <- <-.
    destruct (process_spec entry_of lib Hlib _ _ _ _ _ Hp') as (_ & _ & _ & C). specialize (C _ _ eq_refl).
    destruct (remove_all_ready _ _ _ _ _ Hr) as [X _]; [|eapply X; [eapply Y3; eassumption|exact Es]].
    intros p' s' I' Es' Ed. destruct (came_to_cbs _ _ _ _ _ _ _ _ C p' I') as (st' & s2 & b & _ & _ & Es2 & (j & P & _) & _). congruence.
Qed.
End Sound.

(** Proofs about several runs at the same time. *)
From Coq.Strings Require Import Byte String.
From Coq Require Import List NArith ZArith Bool PeanoNat Lia.
From Verif Require Import Base BaseFacts Shamir Errors Io HeaderIoSpec StreamSpec Text Util CliErrors Crypto HeaderCrypto FileCrypto CredSpec KeyFiles Ui UiSpec Paths Getopts CliCreds Cli Fs Commands FsSpec ConvProofs
  FsProofs FsProofs3 FsProofs4 Program Calls CallSpec CallProofs CallProofs2 CallProofs3 CallProofs4 CallProofs5 CallCases PropCalls ParSpec.
Import ListNotations.
Local Open Scope N_scope.

(** ** Consistency *)

Lemma consistent_wf f : consistent f -> wf_fs f.
Proof.
  intros [A B]. split.
  - intros s i E. destruct (A s i E) as [n En]. exists n. split; [exact En|].
    apply (B i n [s] En); [repeat constructor; intros []|discriminate|intros s' [<-|[]]; exact E].
  - intros s t i n Es Et D En. apply (B i n [s; t] En); [|discriminate|intros s' [<-|[<-|[]]]; assumption].
    constructor; [intros [X|[]]; congruence|]. repeat constructor. intros [].
Qed.

Lemma consistent_add f s i : consistent f -> f_entries f s = None -> unused f i -> consistent (add_file f s i).
Proof.
  intros [A B] Ns [U1 U2]. split; unfold add_file, update; cbn [f_entries f_nodes].
  - intros s' i' E. destruct (N.eqb_spec s' s) as [->|D].
    + injection E as <-. rewrite N.eqb_refl. eauto.
    + destruct (N.eqb_spec i' i) as [->|_]; [eauto|]. exact (A s' i' E).
  - intros i' n l En Nd Nl Hl. destruct (N.eqb_spec i' i) as [->|D].
    + injection En as <-. cbn [n_links]. assert (Only : forall x, In x l -> x = s).
      { intros x I. specialize (Hl x I). cbn beta in Hl. destruct (N.eqb_spec x s) as [|]; [assumption|]. destruct (U2 x Hl). }
      destruct l as [|x [|y l]]; [contradiction|cbn; lia|]. exfalso.
      pose proof (Only x (or_introl eq_refl)). pose proof (Only y (or_intror (or_introl eq_refl))). subst x y.
      apply NoDup_cons_iff in Nd as [X _]. apply X. left. reflexivity.
    + apply (B i' n l En Nd Nl). intros x I. specialize (Hl x I). cbn beta in Hl. destruct (N.eqb_spec x s) as [X|X]; [congruence|exact Hl].
Qed.

Lemma consistent_set f i b : consistent f -> consistent (set_content f i b).
Proof.
  intros [A B]. unfold set_content. destruct (f_nodes f i) as [n0|] eqn:E0; [|split; assumption]. split; unfold update; cbn [f_entries f_nodes].
  - intros s i' E. destruct (N.eqb_spec i' i) as [->|]; [eauto|exact (A s i' E)].
  - intros i' n l En. destruct (N.eqb_spec i' i) as [->|]; [injection En as <-; cbn [n_links]; exact (B i n0 l E0)|exact (B i' n l En)].
Qed.

Lemma consistent_unlink f s : consistent f -> consistent (unlink f s).
Proof.
  intros [A B]. unfold unlink. destruct (f_entries f s) as [[i| |]|] eqn:Es.
  2-4: split; unfold update; cbn [f_entries f_nodes];
    [intros s' i' E; destruct (s' =? s); [discriminate|exact (A s' i' E)]|
     intros i' n l En Nd Nl Hl; apply (B i' n l En Nd Nl); intros x I; specialize (Hl x I); cbn beta in Hl; destruct (x =? s); [discriminate|exact Hl]].
  destruct (A s i Es) as [n0 En0]. rewrite En0.
  assert (More : forall l, NoDup l -> (forall x, In x l -> update (f_entries f) s None x = Some (EFile i)) -> N.of_nat (length l) + 1 <= n_links n0).
  { intros l Nd Hl. assert (X : N.of_nat (length (s :: l)) <= n_links n0); [|cbn [length] in X; lia]. apply (B i n0 (s :: l) En0).
    - constructor; [|exact Nd]. intros I. specialize (Hl s I). unfold update in Hl. rewrite N.eqb_refl in Hl. discriminate.
    - discriminate.
    - intros x [<-|I]; [exact Es|]. specialize (Hl x I). unfold update in Hl. destruct (x =? s); [discriminate|exact Hl]. }
  split; cbn [f_entries f_nodes].
  - intros s' i' E. unfold update at 1. destruct (N.eqb_spec i' i) as [->|].
    + assert (X := More [s'] ltac:(repeat constructor; intros []) ltac:(intros x [<-|[]]; exact E)). cbn in X.
      destruct (N.leb_spec (n_links n0) 1); [lia|eauto].
    + unfold update in E. destruct (s' =? s); [discriminate|]. exact (A s' i' E).
  - intros i' n l En Nd Nl Hl. unfold update in En at 1. destruct (N.eqb_spec i' i) as [->|].
    + destruct (N.leb_spec (n_links n0) 1); [discriminate|]. injection En as <-. cbn [n_links]. pose proof (More l Nd Hl). lia.
    + apply (B i' n l En Nd Nl). intros x I. specialize (Hl x I). unfold update in Hl. destruct (x =? s); [discriminate|exact Hl].
Qed.

Lemma consistent_write wr out w : consistent (w_fs w) -> consistent (w_fs (write_out wr out w)).
Proof.
  intros C. destruct wr as [i|]; [|exact C]. cbn [write_out]. destruct (f_nodes (w_fs w) i) as [n|]; [|exact C]. destruct (n_regular n); [|exact C].
  revert w C. generalize (seq 1 (length out)). induction l as [|k l IH]; intros w C; [exact C|]. cbn [fold_left]. apply IH. cbn [set_fs w_fs]. apply consistent_set, C.
Qed.

Lemma consistent_step entry_of e w w' : takes entry_of e w w' -> consistent (w_fs w) -> consistent (w_fs w').
Proof.
  intros T C. destruct e as [p r|p r|p r|p r|p r|src|d rd wr src out r|wr t out r|pair|out r|new]; cbn [takes] in T.
  - destruct T as [-> _]. exact C.
  - destruct T as [-> _]. exact C.
  - destruct T as [(_ & -> & _)|(s & i & _ & N & U & _ & ->)]; [exact C|]. cbn [set_fs w_fs]. apply consistent_add; assumption.
  - destruct T as [(_ & -> & _)|(s & t & i & _ & _ & _ & [(N & U & ->)|(n & _ & _ & ->)])]; [exact C|cbn [set_fs w_fs]; apply consistent_add; assumption|].
    destruct (n_regular n); [|exact C]. cbn [set_fs w_fs]. apply consistent_set, C.
  - unfold remove_file in T. destruct (entry_of p) as [s|]; [|destruct T as [_ ->]; exact C].
    destruct (f_entries (w_fs w) s) as [[i|t|]|]; try (destruct T as [_ ->]; exact C);
      (destruct T as [(_ & _ & ->)|(_ & ->)]; [exact C|cbn [set_fs w_fs]; apply consistent_unlink, C]).
  - unfold open_stdin in T. destruct (u_input (w_ui w)); [|destruct T as [X _]; discriminate X]. destruct T as [_ ->]. exact C.
  - destruct T as (_ & lines & ->). cbn [set_ui w_fs]. apply consistent_write, C.
  - subst w'. apply consistent_write, C.
  - subst w'. exact C.
  - subst w'. apply consistent_write, C.
  - destruct T as (u & -> & _). exact C.
Qed.

(** ** Each run sees the others as processes that leave its files alone *)

Lemma shared_then entry_of others w b w1 e w2 : shared entry_of others w b w1 -> takes entry_of e w1 w2 -> shared entry_of others w (b ++ [e]) w2.
Proof.
  intros H T. induction H as [w|e' h w w1 w' T' H IH|g h w w' O' H IH]; cbn [app].
  - econstructor; [exact T|constructor].
  - econstructor; [exact T'|apply IH, T].
  - eapply sh_other; [exact O'|apply IH, T].
Qed.

Section Jobs.
Variable entry_of : names.
Variable lib : crypto_lib.
Variable jobs : list job.
Variable f0 : fs.
Hypothesis Hlib : lib_ok lib.
Hypothesis Hruns : Forall (is_run lib) jobs.
Hypothesis Hsep : Forall (fun j => separate entry_of (b_streams j) /\ file_to_file (b_streams j)) jobs.
Hypothesis Hapart : apart entry_of jobs.
Hypothesis Hf0 : consistent f0.

Definition seen (f : fs) (at_ : nat -> world) (done : nat -> list syscall) : Prop :=
  consistent f /\ (forall k, w_fs (at_ k) = f) /\
  exists at0, (forall k, w_fs (at0 k) = f0) /\
    forall k j, nth_error jobs k = Some j -> shared entry_of (leave_alone entry_of (b_streams j)) (at0 k) (done k) (at_ k).

Lemma job_facts k j : nth_error jobs k = Some j -> is_run lib j /\ separate entry_of (b_streams j) /\ file_to_file (b_streams j).
Proof.
  intros E. apply nth_error_In in E. rewrite Forall_forall in Hruns, Hsep. destruct (Hsep j E). auto.
Qed.

Lemma seen_step f at_ done k j e rest w1 : seen f at_ done -> nth_error jobs k = Some j -> b_calls j = done k ++ e :: rest -> takes entry_of e (at_ k) w1 ->
  allowed_step entry_of lib (b_streams j) (b_direction j) f0 f (w_fs w1).
Proof.
  intros (C & F & at0 & F0 & S) Ej Ec T. destruct (job_facts k j Ej) as (R & Se & Ff).
  pose proof (proj1 (shared_steps entry_of lib _ _ _ _ _ _ _ (at0 k) Hlib ltac:(rewrite F0; apply consistent_wf, Hf0) Se Ff R)) as K.
  specialize (K (done k) e (at_ k) w1 (ex_intro _ rest Ec) (S k j Ej) T). rewrite F0, F in K. exact K.
Qed.

(** A step of one run leaves the files of the others alone. *)
Lemma other_job f at_ done k j e rest w1 k' j' s : seen f at_ done -> nth_error jobs k = Some j -> b_calls j = done k ++ e :: rest -> takes entry_of e (at_ k) w1 ->
  k' <> k -> nth_error jobs k' = Some j' -> concerns entry_of (b_streams j') s -> intact f (w_fs w1) s.
Proof.
  intros V Ej Ec T D Ej' Cs. destruct (seen_step _ _ _ _ _ _ _ _ V Ej Ec T s) as [I|[(_ & st & q & I & Eo & Es)|(_ & st & q & b & I & (p & Ei & Es & _) & _)]]; [exact I| |].
  - destruct (Hapart k' k j' j s Ej' Ej D Cs). exists st, q. auto.
  - destruct (Hapart k' k j' j s Ej' Ej D Cs). exists st, p. auto.
Qed.

Lemma together_seen f at_ done : together entry_of jobs f0 f at_ done -> seen f at_ done.
Proof.
  induction 1 as [at_ E|f at_ done k j e rest w1 H V Ej Ec T|f at_ done g H V Cg Lg].
  - split; [exact Hf0|]. split; [exact E|]. exists at_. split; [exact E|]. intros k j _. constructor.
  - assert (O : forall k' j' s, k' <> k -> nth_error jobs k' = Some j' -> concerns entry_of (b_streams j') s -> intact f (w_fs w1) s)
      by (intros k' j' s D Ej' Cs; exact (other_job _ _ _ _ _ _ _ _ _ _ _ V Ej Ec T D Ej' Cs)).
    destruct V as (C & F & at0 & F0 & S).
    assert (C1 : consistent (w_fs w1)) by (eapply consistent_step; [exact T|rewrite F; exact C]).
    split; [exact C1|]. split; [intros i; destruct (Nat.eqb i k); reflexivity|]. exists at0. split; [exact F0|]. intros k' j' Ej'.
    destruct (Nat.eqb_spec k' k) as [->|D].
    + assert (j' = j) as -> by congruence. eapply shared_then; [exact (S k j Ej)|exact T].
    + apply shared_last; [exact (S k' j' Ej')|]. rewrite F. split; [apply consistent_wf, C1|]. intros s Cs. exact (O k' j' s D Ej' Cs).
  - destruct V as (C & F & at0 & F0 & S). split; [exact Cg|]. split; [reflexivity|]. exists at0. split; [exact F0|]. intros k j Ej.
    apply shared_last; [exact (S k j Ej)|]. rewrite F. split; [apply consistent_wf, Cg|]. intros s. apply Lg. eapply nth_error_In, Ej.
Qed.

Lemma together_done f at_ done k j st : together entry_of jobs f0 f at_ done -> nth_error jobs k = Some j -> done k = b_calls j -> b_result j = Some (Ok tt) ->
  In st (b_streams j) -> stream_done entry_of lib (b_direction j) f st.
Proof.
  intros H Ej Ed Er I. apply together_seen in H as (C & F & at0 & F0 & S). destruct (job_facts k j Ej) as (R & Se & Ff).
  pose proof (proj2 (shared_steps entry_of lib _ _ _ _ _ _ _ (at0 k) Hlib ltac:(rewrite F0; apply consistent_wf, Hf0) Se Ff R)) as K.
  rewrite <- (F k). apply (K (at_ k) Er); [|exact I]. specialize (S k j Ej). rewrite Ed in S. exact S.
Qed.

(** ** Each file that was there is there, or its conversion *)

Definition safe_at (f : fs) (done : nat -> list syscall) (s : N) : Prop :=
  intact f0 f s \/
  exists k j st q b, nth_error jobs k = Some j /\ In st (b_streams j) /\ converts entry_of st s q /\ plain_file f0 s b /\ has_conversion entry_of lib (b_direction j) b f q /\
    removal_requested (b_policy j) (done k) /\ f_entries f s = None /\
    exists bb p x, happens (done k) bb (SRemove p x) /\ entry_of p = Some s.

Lemma plain_intact f g s b : intact f g s -> plain_file f s b -> plain_file g s b.
Proof. intros I (i & A). exists i. eapply intact_file; eassumption. Qed.

Lemma intact_trans f g h s : intact f g s -> intact g h s -> intact f h s.
Proof. intros [A B] [C D]. split; [congruence|]. intros i E. rewrite D, B; [reflexivity|exact E|congruence]. Qed.

Lemma requested_more policy h h' : removal_requested policy h -> removal_requested policy (h ++ h').
Proof.
  intros [E|(E & new & b & r & a & I & K)]; [left; exact E|]. right. split; [exact E|]. exists new, b, r, a. split; [apply in_or_app; left; exact I|exact K].
Qed.
Lemma happens_more h h' b e : happens h b e -> happens (h ++ h') b e.
Proof. intros [a ->]. exists (a ++ h'). now rewrite <- app_assoc. Qed.

(** While originals are removed, outputs are left alone. *)
Lemma removing f at_ done k j e rest w1 st s q t c bb p x : seen f at_ done -> nth_error jobs k = Some j -> b_calls j = done k ++ e :: rest -> takes entry_of e (at_ k) w1 ->
  In st (b_streams j) -> converts entry_of st s q -> entry_of q = Some t -> plain_file f t c ->
  happens (done k) bb (SRemove p x) -> entry_of p = Some s -> intact f (w_fs w1) t.
Proof.
  intros (C & F & _) Ej Ec T Hst (p0 & Ei & Es & Eo) Et Pt Hb Ep. destruct (job_facts k j Ej) as (R & Se & Ff).
  assert (He : happens (b_calls j) (done k) e) by (exists rest; exact Ec).
  assert (No : ~ originals_there (b_streams j) false (b_direction j) (done k)).
  { intros O. destruct (O bb p x Hb) as (st' & rd & wr & src & out & e' & new & h0 & I' & (Eo' & _) & _). exact (Se st st' p0 p s Hst I' Ei Eo' Es Ep). }
  assert (FS : w_fs w1 = w_fs (at_ k) -> intact f (w_fs w1) t) by (intros ->; rewrite F; apply intact_refl).
  destruct e as [p' r|p' r|p' r|p' r|p' r|src|d rd wr src out r|wr tx out r|pair|out r|new]; cbn [takes] in T.
  - destruct (C66_inputs _ _ _ _ _ _ _ _ _ _ _ Hlib R He) as [O _]. contradiction.
  - destruct (C66_inputs _ _ _ _ _ _ _ _ _ _ _ Hlib R He) as [O _]. contradiction.
  - destruct (proj1 (C66_creations _ _ _ _ _ _ _ _ _ _ _ Hlib R) _ He) as (_ & _ & O). contradiction.
  - destruct (proj2 (C66_creations _ _ _ _ _ _ _ _ _ _ _ Hlib R) _ He) as (_ & _ & O). contradiction.
  - destruct (C66_removals _ _ _ _ _ _ _ _ _ _ _ _ Hlib R He) as [(st' & rd & wr & src & out & e' & new & h0 & I' & _ & Ed)|[(st' & o & rd & wr & src & out & h0 & h1 & I' & Ei' & _) _]].
    + exfalso. assert (Hc : happens (b_calls j) h0 (SConvert (b_direction j) rd wr src out (Some (Err e')))).
      { exists (SUi new :: SRemove p' r :: rest). rewrite Ec, Ed, <- app_assoc. reflexivity. }
      destruct (C66_conversions _ _ _ _ _ _ _ _ _ _ _ _ _ _ _ _ Hlib R Hc) as (_ & _ & O & _). destruct Hb as [a Ea]. rewrite Ed in Ea.
      assert (Hh : happens h0 bb (SRemove p x)).
      { destruct (exists_last (l := SRemove p x :: a) ltac:(discriminate)) as (a1 & y & E1). rewrite E1, app_assoc in Ea.
        change ([SConvert (b_direction j) rd wr src out (Some (Err e')); SUi new]) with ([SConvert (b_direction j) rd wr src out (Some (Err e'))] ++ [SUi new]) in Ea.
        rewrite app_assoc in Ea. apply app_inj_tail in Ea as [Ea <-].
        destruct a1 as [|z a1]; [discriminate E1|]. injection E1 as <- E1.
        destruct (exists_last (l := SRemove p x :: a1) ltac:(discriminate)) as (a2 & y & E2). rewrite E2, app_assoc in Ea. apply app_inj_tail in Ea as [Ea <-].
        destruct a2 as [|z a2]; [discriminate E2|]. injection E2 as <- E2. exists a2. exact Ea. }
      destruct (O bb p x Hh) as (st2 & rd2 & wr2 & src2 & out2 & e2 & new2 & h2 & I2 & (Eo2 & _) & _). exact (Se st st2 p0 p s Hst I2 Ei Eo2 Es Ep).
    + unfold remove_file in T. destruct (entry_of p') as [s'|] eqn:Ep'; [|apply FS; destruct T as [_ ->]; reflexivity].
      assert (D : s' <> t) by (intros ->; exact (Se st' st p' q t I' Hst Ei' Eo Ep' Et)).
      assert (K : w_fs w1 = w_fs (at_ k) \/ w_fs w1 = unlink (w_fs (at_ k)) s').
      { destruct (f_entries (w_fs (at_ k)) s') as [[i|tt'|]|]; try (destruct T as [_ ->]; left; reflexivity); (destruct T as [(_ & _ & ->)|(_ & ->)]; [left; reflexivity|right; reflexivity]). }
      destruct K as [K|K]; [exact (FS K)|]. rewrite K, F. destruct Pt as (i & Pe & Pn). split.
      * unfold unlink, update. cbn [f_entries]. destruct (N.eqb_spec t s') as [X|_]; [congruence|reflexivity].
      * intros i' Ei2. assert (i' = i) by congruence. subst i'. unfold unlink. cbn [f_nodes]. destruct (f_entries f s') as [[i2| |]|] eqn:E2; try reflexivity.
        destruct (f_nodes f i2) as [n2|]; [|reflexivity]. unfold update. destruct (N.eqb_spec i i2) as [<-|_]; [|reflexivity].
        destruct D. exact (sole f t s' i c (consistent_wf _ C) (conj Pe Pn) E2).
  - destruct (C66_inputs _ _ _ _ _ _ _ _ _ _ _ Hlib R He) as [O _]. contradiction.
  - destruct (C66_conversions _ _ _ _ _ _ _ _ _ _ _ _ _ _ _ _ Hlib R He) as (_ & _ & O & _). contradiction.
  - destruct (C66_inputs _ _ _ _ _ _ _ _ _ _ _ Hlib R He).
  - destruct (C66_inputs _ _ _ _ _ _ _ _ _ _ _ Hlib R He).
  - destruct (C66_inputs _ _ _ _ _ _ _ _ _ _ _ Hlib R He).
  - apply FS. destruct T as (u & -> & _). reflexivity.
Qed.

Lemma together_safe f at_ done s : together entry_of jobs f0 f at_ done -> f_entries f0 s <> None ->
  (exists j, In j jobs /\ concerns entry_of (b_streams j) s) -> safe_at f done s.
Proof.
  intros H Ns Cs. induction H as [at_ E|f at_ done k j e rest w1 H IH Ej Ec T|f at_ done g H IH Cg Lg].
  - left. apply intact_refl.
  - assert (V := together_seen _ _ _ H). destruct IH as [IH|(k' & j' & st & q & b & Ej' & Hst & Cv & Pl & Hc & Rq & Nf & bb & p & x & Hb & Ep)].
    + destruct (seen_step _ _ _ _ _ _ _ _ V Ej Ec T s) as [I|[(N & _)|(N & st & q & b & Hst & Cv & Pl & Hc)]]; [left; eapply intact_trans; eassumption|contradiction|].
      right. exists k, j, st, q, b. rewrite Nat.eqb_refl. split; [exact Ej|]. split; [exact Hst|]. split; [exact Cv|].
      assert (Pl0 : plain_file f0 s b).
      { destruct Pl as (i & A & B). destruct IH as [I1 I2]. exists i. split; [congruence|]. rewrite <- I2; [exact B|congruence]. }
      split; [exact Pl0|]. split; [exact Hc|]. destruct (job_facts k j Ej) as (R & Se & Ff).
      assert (Pf : f_entries (w_fs (at_ k)) s <> None) by (destruct V as (_ & F & _); rewrite F; destruct Pl as (i & A & _); congruence).
      destruct (step_entries entry_of e (at_ k) w1 s T) as [X|[(q' & i & _ & _ & X & _)|[(q1 & q2 & i & _ & _ & _ & X & _)|(p & -> & Ep & _)]]]; [congruence|contradiction|contradiction|].
      split.
      * apply requested_more. destruct Cv as (p0 & Ei & Es & Eo).
        destruct (C66_removals _ _ _ _ _ _ _ _ _ _ _ _ Hlib R (ex_intro _ rest Ec)) as [(st' & rd & wr & src & out & e' & new & h0 & I' & (Eo' & _) & _)|[_ Rq]]; [|exact Rq].
        destruct (Se st st' p0 p s Hst I' Ei Eo' Es Ep).
      * split; [exact N|]. exists (done k), p, (Ok tt). split; [exists []; reflexivity|exact Ep].
    + right. exists k', j', st, q, b. split; [exact Ej'|]. split; [exact Hst|]. split; [exact Cv|]. split; [exact Pl|].
      assert (It : forall t c, entry_of q = Some t -> plain_file f t c -> intact f (w_fs w1) t).
      { intros t c Et Pt. destruct (Nat.eq_dec k' k) as [->|D].
        - assert (j' = j) as -> by congruence. eapply removing; eassumption.
        - eapply (other_job f at_ done k j e rest w1 k' j' t); try eassumption. destruct Cv as (p0 & _ & _ & Eo). exists st, q. auto. }
      assert (Nf' : f_entries (w_fs w1) s = None).
      { destruct (step_entries entry_of e (at_ k) w1 s T) as [X|[(q' & i & -> & Eq & _)|[(q1 & q2 & i & -> & _)|(p' & _ & _ & _ & X)]]]; [| | |exact X].
        - rewrite X. destruct V as (_ & F & _). rewrite F. exact Nf.
        - exfalso. destruct (job_facts k j Ej) as (R & Se & Ff). destruct (proj1 (C66_creations _ _ _ _ _ _ _ _ _ _ _ Hlib R) _ (ex_intro _ rest Ec)) as (_ & (st' & _ & _ & _ & I' & Eo' & _) & _).
          destruct Cv as (p0 & Ei & Es & Eo). destruct (Nat.eq_dec k' k) as [->|D].
          + assert (j' = j) as -> by congruence. exact (Se st st' p0 q' s Hst I' Ei Eo' Es Eq).
          + apply (Hapart k' k j' j s Ej' Ej D); [exists st, p0; auto|exists st', q'; auto].
        - exfalso. destruct (job_facts k j Ej) as (R & Se & Ff). destruct (proj2 (C66_creations _ _ _ _ _ _ _ _ _ _ _ Hlib R) _ (ex_intro _ rest Ec)) as (X & _). discriminate X. }
      split; [destruct Hc as (t & c & Et & Pt & Ic); exists t, c; split; [exact Et|]; split; [eapply plain_intact; [eapply It; eassumption|exact Pt]|exact Ic]|].
      destruct (Nat.eqb_spec k' k) as [->|D]; (split; [|split; [exact Nf'|]]).
      * apply requested_more, Rq.
      * exists bb, p, x. split; [apply happens_more, Hb|exact Ep].
      * exact Rq.
      * exists bb, p, x. auto.
  - destruct IH as [IH|(k' & j' & st & q & b & Ej' & Hst & Cv & Pl & Hc & Rq & Nf & bb & p & x & Hb & Ep)].
    + left. eapply intact_trans; [exact IH|]. destruct Cs as (j & Hj & Cs). exact (Lg j s Hj Cs).
    + right. exists k', j', st, q, b. assert (Hj : In j' jobs) by (eapply nth_error_In, Ej').
      destruct Cv as (p0 & Ei & Es & Eo). do 2 (split; [assumption|]). split; [exists p0; auto|]. split; [exact Pl|]. split; [|split; [exact Rq|split; [|exists bb, p, x; auto]]].
      * destruct Hc as (t & c & Et & Pt & Ic). exists t, c. split; [exact Et|]. split; [|exact Ic]. eapply plain_intact; [|exact Pt]. apply (Lg j' t Hj). exists st, q. auto.
      * rewrite (proj1 (Lg j' s Hj ltac:(exists st, p0; auto))). exact Nf.
Qed.
End Jobs.

(** Proofs that conversions with force work if nothing stands in the way, and of what happens if a file is named twice (C90). *)
From Coq.Strings Require Import Byte String.
From Coq Require Import List NArith ZArith Bool PeanoNat Lia.
From Verif Require Import Base BaseFacts Shamir Errors Io HeaderIoSpec StreamSpec Text Util CliErrors Crypto HeaderCrypto CredSpec FileCrypto Ui UiSpec Paths Cli Fs Commands FsSpec FsProofs ConvProofs
  FsProofs2 FsProofs3 FsProofs4 FsProofs8 FsProofs11 FsProofs12 FsProofs15 ForceSpec ForceProofs.
Import ListNotations.
Local Open Scope N_scope.

(** ** A terminal that works *)

Definition keeps_working {A} (m : io A) : Prop := forall w r w', m w r w' -> works (w_ui w) -> works (w_ui w').
Lemma kw_same {A} (m : io A) : (forall w r w', m w r w' -> w_ui w' = w_ui w) -> keeps_working m.
Proof. intros H w r w' K. rewrite (H _ _ _ K). auto. Qed.
Lemma kw_sim {A} (m : io A) : sim m -> keeps_working m.
Proof. intros H w r w' K. eapply sim_works; eassumption. Qed.
Lemma kw_bind {A B} (m : io A) (f : A -> io B) : keeps_working m -> (forall a, keeps_working (f a)) -> keeps_working (io_bind m f).
Proof. intros M F w r w' [(a & w1 & H1 & H2)|[(e & H & _)|(H & _)]] R; [eapply F; [exact H2|eapply M; eassumption]|eapply M; eassumption..]. Qed.
Lemma kw_try {A} (m : io A) : keeps_working m -> keeps_working (io_try m).
Proof. intros M w r w' [(x & _ & H & _)|(H & _)] R; eapply M; eassumption. Qed.

Section WithEnvironment.
Variable entry_of : names.
Variable lib : crypto_lib.
Hypothesis Hlib : lib_ok lib.

Lemma kw_output o force : keeps_working (open_output entry_of o force).
Proof.
  destruct o as [q|]; [|apply kw_sim, sim_ret]. apply kw_same. cbn [open_output]. destruct force; intros w r w' H.
  - destruct H as [(_ & -> & _)|(s & t & i & _ & _ & _ & [(_ & _ & ->)|(n & _ & _ & ->)])]; [reflexivity..|]. destruct (n_regular n); reflexivity.
  - destruct H as [(_ & -> & _)|(s & i & _ & _ & _ & _ & ->)]; reflexivity.
Qed.
Lemma kw_convert d rd wr : keeps_working (convert entry_of lib d rd wr).
Proof.
  intros w r w' (er & src & room & fl & r0 & snk & k & _ & _ & _ & _ & K) R.
  assert (Z : forall out, works (w_ui (let w1 := write_out wr out w in set_ui w1 (progress_lines k (w_ui w1))))).
  { intros out. cbv zeta. cbn [set_ui w_ui]. assert (E : w_ui (write_out wr out w) = w_ui w) by (destruct wr; [apply write_node_ui|reflexivity]). rewrite E.
    apply (tame_progress k) in R. unfold ui_alike in R. apply R. }
  destruct K as [(_ & ->)|(_ & _ & out & _ & ->)]; apply Z.
Qed.
Lemma kw_step {k n} st force d : keeps_working (step entry_of lib k n st force d).
Proof.
  apply kw_bind.
  - apply kw_bind.
    + apply kw_try. apply kw_bind; [apply kw_sim, sim_ui, act_ignore, act_println|]. intros _. apply kw_bind; [apply kw_sim, sim_lift|]. intros o.
      apply kw_bind; [apply kw_sim, sim_open_input|]. intros rd. apply kw_bind; [apply kw_output|]. intros wr. apply kw_sim, sim_ret.
    + intros [[[rd wr] cb]|e|]; [|apply kw_sim, sim_ret|apply kw_sim, sim_lift]. apply kw_bind; [apply kw_try, kw_convert|]. intros r. apply kw_sim, sim_ret.
  - intros [[[]|e|] cb]; [apply kw_sim, sim_ret| |apply kw_sim, sim_lift]. apply kw_bind; [apply kw_sim, sim_ui, act_ignore, act_print_error|]. intros _.
    apply kw_bind; [destruct cb; apply kw_sim; [apply sim_remove_cb|apply sim_ret]|]. intros _. apply kw_sim, sim_ret.
Qed.

(** ** Nothing in the way *)

Section Sound.
Hypothesis sound : faulty entry_of = false.

Lemma input_over p s b force w r w' : entry_of p = Some s -> plain_file (w_fs w) s b -> open_input entry_of (IFile p) force w r w' ->
  exists i, f_entries (w_fs w) s = Some (EFile i) /\ f_nodes (w_fs w) i = Some (mkNode true b 1) /\ r = Ok (ReadNode i) /\ w' = w.
Proof.
  intros Es P H. cbn [open_input] in H.
  destruct H as [([rd md] & w1 & H1 & H)|[(e & H1 & _)|(H1 & _)]]; destruct (open_file_ready _ sound _ _ _ _ _ _ Es P H1) as (i & A & B & E & ->); try discriminate E.
  injection E as -> ->. exists i. split; [exact A|]. split; [exact B|]. cbn [m_type m_nlink] in H. change (1 =? 1) with true in H. rewrite !orb_true_r in H.
  do 3 (destruct H as [(? & ? & [_ ->] & H)|[(? & [E _] & _)|([E _] & _)]]; [|discriminate E..]). destruct H as [-> ->]. auto.
Qed.
Lemma output_over q t w r w' : entry_of q = Some t -> ordinary (w_fs w) t -> spacious (w_fs w) -> open_output entry_of (OFile q) true w r w' -> r <> Err CIo.
Proof.
  intros Et O Sp H ->. cbn [open_output] in H. destruct H as [(_ & _ & X)|(s & t' & i & _ & _ & E & _)]; [|discriminate E]. revert X. apply no_fail; [exact sound|].
  exists t, t. split; [exact Et|]. destruct O as [N|(b & i & A & B)].
  - split; [unfold max_links; cbn [follow]; rewrite N; reflexivity|]. left. split; [exact N|]. destruct (Sp []) as (i & U & _). eauto.
  - split; [unfold max_links; cbn [follow]; rewrite A; reflexivity|]. right. eauto.
Qed.
Lemma convert_ready_over d j b t i f w r w' : convertible lib d b -> created f t i [] (w_fs w) -> f_nodes f j = Some (mkNode true b 1) -> j <> i ->
  convert entry_of lib d (ReadNode j) (WriteNode i) w r w' -> r = Ok tt \/ (r = Panic /\ stalls entry_of = true).
Proof.
  intros Cv C Ej Dj (er & src & room & fl & r0 & snk & k & Hr & Hk & Hp & Hc & K). destruct (Hk sound) as [-> ->].
  unfold provides in Hp. rewrite (proj2 C) in Hp. destruct (N.eqb_spec j i) as [->|_]; [contradiction Dj; reflexivity|].
  rewrite Ej in Hp. specialize (Hp eq_refl). assert (X : WriteNode i <> WriteNode j) by congruence. specialize (Hp X). cbn [n_content] in Hp.
  destruct (ends_in_error src) eqn:Ee; [destruct Hp as [Y _]; congruence|].
  destruct K as [(-> & _)|(-> & P & _)]; [|right; split; [reflexivity|eapply panics_stalls, P]]. left. rewrite (Cv er src r0 snk Hr Ee Hp Hc). reflexivity.
Qed.
Lemma step_ready_over {k n} st d w r w' p s b q t : s_input st = IFile p -> entry_of p = Some s -> plain_file (w_fs w) s b -> convertible lib d b ->
  s_output st = Ok (OFile q) -> entry_of q = Some t -> s <> t -> ordinary (w_fs w) t -> wf_fs (w_fs w) -> spacious (w_fs w) ->
  step entry_of lib k n st true d w r w' -> (r = Panic /\ stalls entry_of = true) \/ r = Ok ([p], []).
Proof.
  intros Ei Es Pl Cv Eo Et Ns Ot W Sp H.
  assert (A : forall ra wa, attempt entry_of lib k n st true d w ra wa -> (ra = Panic /\ stalls entry_of = true) \/ exists cb, ra = Ok (Ok tt, cb)).
  { clear H. intros ra wa H. unfold attempt in H.
    match type of H with io_bind (io_try ?m) _ _ _ _ => set (opening := m) in H end.
    assert (O : forall ro wo, opening w ro wo -> exists i j, created (w_fs w) t i [] (w_fs wo) /\ f_nodes (w_fs w) j = Some (mkNode true b 1) /\ j <> i /\
       ro = Ok (ReadNode j, WriteNode i, Some q)).
    { clear H. intros ro wo H. unfold opening in H.
      destruct H as [(x & w1 & H1 & H)|[(e & [H1 _] & _)|([H1 _] & _)]];
        [|rewrite ignore_ok in H1 by apply println_not_panic; discriminate H1..].
      apply quiet_ui in H1. rewrite Eo, Ei in H. destruct H as [(o & w2 & [E ->] & H)|[(e & [E _] & _)|([E _] & _)]]; [injection E as ->|discriminate E..].
      rewrite <- (proj1 H1) in Pl, Ot, Sp, W.
      destruct H as [(rd & w2 & H2 & H)|[(e & H2 & _)|(H2 & _)]]; destruct (input_over _ _ _ _ _ _ _ Es Pl H2) as (j & A & B & E & ->); try discriminate E.
      injection E as ->.
      assert (Oo : forall r4 w4, open_output entry_of (OFile q) true w1 r4 w4 -> exists i, r4 = Ok (WriteNode i) /\ created (w_fs w) t i [] (w_fs w4) /\ j <> i).
      { intros r4 w4 H4. destruct (output_ordinary entry_of q t true w1 r4 w4 Et Ot H4) as [(_ & E)|(i & E & R & C & _)].
        - destruct (output_over _ _ _ _ _ Et Ot Sp H4 E).
        - exists i. split; [exact E|]. rewrite (proj1 H1) in C. split; [exact C|]. intros ->. exact (room_alone _ _ _ W R s Ns A). }
      destruct H as [(wr & w2 & H3 & H)|[(e & H3 & _)|(H3 & _)]]; destruct (Oo _ _ H3) as (i & E & C & Dj); try discriminate E.
      injection E as ->. destruct H as [-> ->]. rewrite (proj1 H1) in B. exists i, j. auto. }
    clearbody opening.
    destruct H as [(op & w1 & H1 & H)|[(e & H1 & _)|(H1 & _)]].
    2:{ destruct H1 as [(x & _ & _ & E)|(_ & E)]; discriminate E. }
    2:{ destruct H1 as [(x & _ & _ & E)|(H1 & _)]; [discriminate E|]. destruct (O _ _ H1) as (i & j & _ & _ & _ & E). discriminate E. }
    destruct H1 as [(x & Nx & H1 & E)|(_ & E)]; [|discriminate E]. injection E as ->. destruct (O _ _ H1) as (i & j & C & Ej & Dj & ->). clear O H1.
    destruct H as [(y & w2 & H2 & [-> ->])|[(e & H2 & _)|(H2 & ->)]].
    - destruct H2 as [(z & Nz & H2 & E)|(_ & E)]; [injection E as ->|discriminate E]. right. exists (Some q).
      destruct (convert_ready_over _ _ _ _ _ _ _ _ _ Cv C Ej Dj H2) as [->|(-> & _)]; [reflexivity|contradiction Nz; reflexivity].
    - destruct H2 as [(z & _ & _ & E)|(_ & E)]; discriminate E.
    - left. split; [reflexivity|]. destruct H2 as [(z & _ & _ & E)|(H2 & _)]; [discriminate E|].
      destruct (convert_ready_over _ _ _ _ _ _ _ _ _ Cv C Ej Dj H2) as [E|(_ & K)]; [discriminate E|exact K]. }
  unfold step in H. destruct H as [([res cb] & w1 & H1 & H)|[(e & H1 & _)|(H1 & ->)]].
  - destruct (A _ _ H1) as [(E & _)|(cb' & E)]; [discriminate E|]. injection E as -> <-.
    destruct H as [-> ->]. right. unfold input_cleanup; rewrite Ei; reflexivity.
  - destruct (A _ _ H1) as [(E & _)|(cb' & E)]; discriminate E.
  - left. split; [reflexivity|]. destruct (A _ _ H1) as [(_ & K)|(cb' & E)]; [exact K|discriminate E].
Qed.

Lemma process_ready_over {k n} d l : forall w r w', process entry_of lib k n l true d w r w' -> works (w_ui w) -> spacious (w_fs w) -> wf_fs (w_fs w) ->
  (forall st, In st l -> ready_over entry_of lib d (w_fs w) st) -> separate entry_of l -> distinct_outputs entry_of l ->
  (r = Panic /\ stalls entry_of = true) \/ exists cbs, r = Ok (cbs, []) /\ forall st p, In st l -> s_input st = IFile p -> In p cbs.
Proof.
  revert k. induction l as [|st l IH]; intros k w r w' H Wk Sp W Rd Se Di.
  { destruct H as [-> ->]. right. exists []. split; [reflexivity|intros st p []]. }
  pose proof (Rd st (or_introl eq_refl)) as (p & s & b & q & t & Ei & Es & Pl & Cv & Eo & Et & Ot).
  assert (Ns : s <> t). { intros ->. exact (Se st st p q t (or_introl eq_refl) (or_introl eq_refl) Ei Eo Es Et). }
  cbn [process] in H. destruct H as [([c0 e0] & w1 & H1 & H)|[(e & H1 & _)|(H1 & ->)]];
    destruct (step_ready_over st d _ _ _ _ _ _ _ _ Ei Es Pl Cv Eo Et Ns Ot W Sp H1) as [(E & Pp)|E]; try discriminate E.
  2:{ left. auto. }
  injection E as -> ->. pose proof (kw_step st true d _ _ _ H1 Wk) as Wk1.
  destruct (step_over entry_of lib Hlib _ _ _ _ _ _ _ _ _ _ H1 Ei Es Eo Et Ns W (or_intror (ex_intro _ b Pl)) Ot) as (_ & (W1 & _ & T1) & _ & _).
  pose proof (proj2 (total_step entry_of lib Hlib st true d w Sp) _ _ H1) as Sp1. clear H1.
  destruct H as [(u & w2 & H2 & H)|[(e & [E _] & _)|([E _] & _)]].
  2:{ exfalso. pose proof (println_result [] (w_ui w1)) as Z. rewrite <- E in Z. destruct Z as [_ Z]. exact (Z Wk1). }
  2:{ exfalso. exact (println_not_panic 0 [] (w_ui w1) (eq_sym E)). }
  pose proof (sim_works _ _ _ _ (sim_ui _ (act_println 0 [])) H2 Wk1) as Wk2. pose proof (quiet_ui _ _ _ _ H2) as Q2. clear H2.
  rewrite <- (proj1 Q2) in W1, T1, Sp1. destruct (distinct_cons _ _ _ Di) as [Di' Dt]. specialize (Dt q t Eo Et).
  assert (Rd2 : forall a, In a l -> ready_over entry_of lib d (w_fs w2) a).
  { intros a I. destruct (Rd a (or_intror I)) as (p1 & s1 & b1 & q1 & t1 & B1 & B2 & B3 & B4 & B5 & B6 & B7). exists p1, s1, b1, q1, t1. do 2 (split; [assumption|]). split.
    - eapply intact_plain; [apply T1|exact B3]. intros ->. exact (Se a st p1 q t (or_intror I) (or_introl eq_refl) B1 Eo B2 Et).
    - do 3 (split; [assumption|]). eapply intact_ordinary; [apply T1|exact B7]. intros ->. apply Dt. exists a, q1. auto. }
  assert (Tl : forall r3 w3, process entry_of lib (S k) n l true d w2 r3 w3 ->
    (r3 = Panic /\ stalls entry_of = true) \/ exists cbs, r3 = Ok (cbs, []) /\ forall st p, In st l -> s_input st = IFile p -> In p cbs).
  { intros r3 w3 H3. exact (IH _ _ _ _ H3 Wk2 Sp1 W1 Rd2 (separate_cons _ _ _ Se) Di'). }
  clear IH. destruct H as [([c1 e1] & w3 & H3 & H)|[(e & H3 & _)|(H3 & ->)]]; destruct (Tl _ _ H3) as [(E & Zs)|(cbs & E & Z3)]; try discriminate E.
  - injection E as -> ->. destruct H as [-> ->]. right. exists (p :: cbs). split; [reflexivity|].
    intros st' p' [<-|I'] Ei'; [left; congruence|right; eapply Z3; eassumption].
  - left. auto.
Qed.
Lemma crypt_ready_over streams policy d w r w' : crypt_streams entry_of lib streams policy true d w r w' -> wf_fs (w_fs w) -> works (w_ui w) -> spacious (w_fs w) ->
  stalls entry_of = false -> (forall st, In st streams -> ready_over entry_of lib d (w_fs w) st) -> separate entry_of streams -> distinct_outputs entry_of streams ->
  r = Ok tt \/ (policy = PromptUser /\ exists e, tty_error e /\ r = Err e).
Proof.
  intros H W Wk Sp St Rd Se Di. destruct (crypt_inv _ _ _ _ _ _ _ _ _ H) as (rp & w1 & Hp & K).
  destruct (process_ready_over d _ _ _ _ Hp Wk Sp W Rd Se Di) as [(_ & Z)|(cbs & -> & Z)]; [congruence|].
  destruct K as [(e & E & _)|[(E & _)|(cbs' & errs & E & K)]]; [discriminate E..|]. injection E as <- <-.
  destruct K as [(_ & [->|K])|(w2 & _ & _ & _ & ->)]; auto.
Qed.

(** Two files that are converted to the same one. *)
Lemma collision st1 st2 d w r w' p1 s1 b1 p2 s2 b2 q t : crypt_streams entry_of lib [st1; st2] DeleteFiles true d w r w' ->
  wf_fs (w_fs w) -> works (w_ui w) -> spacious (w_fs w) -> stalls entry_of = false ->
  s_input st1 = IFile p1 -> entry_of p1 = Some s1 -> plain_file (w_fs w) s1 b1 -> convertible lib d b1 -> s_output st1 = Ok (OFile q) ->
  s_input st2 = IFile p2 -> entry_of p2 = Some s2 -> plain_file (w_fs w) s2 b2 -> convertible lib d b2 -> s_output st2 = Ok (OFile q) ->
  entry_of q = Some t -> s1 <> t -> s2 <> t -> ordinary (w_fs w) t ->
  r = Ok tt /\ f_entries (w_fs w') s1 = None /\ f_entries (w_fs w') s2 = None /\ has_conversion entry_of lib d b2 (w_fs w') q.
Proof.
  intros H W Wk Sp St I1 E1 P1 C1 O1 I2 E2 P2 C2 O2 Et N1 N2 Ot.
  assert (Pr : forall rp w1, process entry_of lib 0 2 [st1; st2] true d w rp w1 -> rp = Ok ([p1; p2], []) /\ wf_fs (w_fs w1) /\
    plain_file (w_fs w1) s1 b1 /\ plain_file (w_fs w1) s2 b2 /\ has_conversion entry_of lib d b2 (w_fs w1) q).
  { clear H. intros rp w1 H. cbn [process] in H.
    assert (Pl : forall w0 ru wu, works (w_ui w0) -> io_ui (ui_println 0 []) w0 ru wu -> ru = Ok tt /\ w_fs wu = w_fs w0 /\ works (w_ui wu)).
    { intros w0 ru wu K [-> ->]. destruct (println_works [] _ K) as [A B]. auto. }
    destruct H as [([c0 e0] & w2 & H1 & H)|[(e & H1 & _)|(H1 & _)]];
      destruct (step_ready_over st1 d _ _ _ _ _ _ _ _ I1 E1 P1 C1 O1 Et N1 Ot W Sp H1) as [(E & Pp)|E]; try discriminate E; try congruence.
    injection E as -> ->. pose proof (kw_step st1 true d _ _ _ H1 Wk) as Wk2.
    destruct (step_over entry_of lib Hlib _ _ _ _ _ _ _ _ _ _ H1 I1 E1 O1 Et N1 W (or_intror (ex_intro _ b1 P1)) Ot) as (_ & (W2 & Ot2 & T2) & _ & _).
    pose proof (proj2 (total_step entry_of lib Hlib st1 true d w Sp) _ _ H1) as Sp2. clear H1.
    assert (P12 : plain_file (w_fs w2) s1 b1) by (eapply intact_plain; [apply T2, N1|exact P1]).
    assert (P22 : plain_file (w_fs w2) s2 b2) by (eapply intact_plain; [apply T2, N2|exact P2]). clear T2.
    destruct H as [(u & w3 & H1 & H)|[(e & H1 & _)|(H1 & _)]]; destruct (Pl _ _ _ Wk2 H1) as (X & Q & Wk3); try discriminate X. clear H1 X.
    rewrite <- Q in W2, Ot2, Sp2, P12, P22. clear Q Wk2 w2.
    destruct H as [([c1 e1] & w4 & H3 & [-> ->])|[(e & H3 & ->)|(H3 & ->)]];
      (destruct H3 as [([c2 e2] & w5 & H1 & H3)|[(e' & H1 & E3)|(H1 & E3)]];
       destruct (step_ready_over st2 d _ _ _ _ _ _ _ _ I2 E2 P22 C2 O2 Et N2 Ot2 W2 Sp2 H1) as [(E & Pp)|E]; try discriminate E; try congruence);
      injection E as -> ->; pose proof (kw_step st2 true d _ _ _ H1 Wk3) as Wk5;
      destruct (step_over entry_of lib Hlib _ _ _ _ _ _ _ _ _ _ H1 I2 E2 O2 Et N2 W2 (or_intror (ex_intro _ b2 P22)) Ot2) as (_ & (W5 & _ & T5) & _ & R5); clear H1;
      (destruct H3 as [(u3 & w6 & H1 & H3)|[(e' & H1 & E3)|(H1 & E3)]]; destruct (Pl _ _ _ Wk5 H1) as (X & Q & _); try discriminate X); clear X H1;
      (destruct H3 as [([c3 e3] & w7 & [E7 ->] & [E8 ->])|[(e' & [E7 _] & _)|([E7 _] & _)]]; try discriminate E7); try discriminate E8.
    injection E7 as -> ->. injection E8 as -> ->. rewrite Q. split; [reflexivity|]. split; [exact W5|].
    split; [eapply intact_plain; [apply T5, N1|exact P12]|]. split; [eapply intact_plain; [apply T5, N2|exact P22]|].
    destruct R5 as [X|[(_ & b & Pb & Hc)|(e & X)]]; [discriminate X| |discriminate X]. assert (b = b2) as ->; [|exact Hc].
    destruct Pb as (i & A1 & A2), P22 as (j & B1 & B2). congruence. }
  assert (Rr : r = Ok tt).
  { destruct (crypt_inv _ _ _ _ _ _ _ _ _ H) as (rp & w1 & Hp & K). destruct (Pr _ _ Hp) as (-> & _).
    destruct K as [(e & E & _)|[(E & _)|(cbs' & errs & E & K)]]; [discriminate E..|]. injection E as <- <-.
    destruct K as [(_ & [->|(X & _)])|(w2 & _ & _ & _ & ->)]; [reflexivity|discriminate X|reflexivity]. }
  split; [exact Rr|]. destruct (delete_inv _ _ _ _ _ _ _ _ H) as (rp & w1 & Hp & K). destruct (Pr _ _ Hp) as (-> & W1 & P11 & P21 & Hc). clear Pr Hp.
  destruct K as [(e & E & _)|[(E & _)|(cbs & errs & E & r2 & K)]]; [discriminate E..|]. injection E as <- <-.
  destruct (remove_all_ready entry_of sound true _ _ _ _ K) as [A _].
  { intros p s [<-|[<-|[]]] Es; [assert (s = s1) as -> by congruence; destruct P11 as (i & X & _)|assert (s = s2) as -> by congruence; destruct P21 as (i & X & _)]; rewrite X; discriminate. }
  split; [exact (A p1 s1 (or_introl eq_refl) E1)|]. split; [exact (A p2 s2 (or_intror (or_introl eq_refl)) E2)|].
  assert (L : forall p s, In p [p1; p2] -> entry_of p = Some s -> In s [s1; s2]).
  { intros p s [<-|[<-|[]]] Es; [left|right; left]; congruence. }
  destruct (remove_all_spec entry_of true [s1; s2] (w_fs w1)) with (cbs := [p1; p2]) (w := w1) (r := r2) (w' := w') as (_ & [R _] & _).
  - intros s [<-|[<-|[]]]; eauto.
  - exact L.
  - exact K.
  - exact W1.
  - apply removed_refl.
  - eapply conversion_intact; [exact Et| |exact Hc]. destruct (R t) as [X|[[X|[X|[]]] _]]; [exact X|contradiction..].
Qed.
End Sound.
End WithEnvironment.

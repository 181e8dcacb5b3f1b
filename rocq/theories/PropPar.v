(** Several runs at the same time, on different files (C73).

    Vocabulary: [job], [is_run], [consistent], [apart], [together] (ParSpec); [takes] (Calls); [concerns], [allowed_step],
    [stream_done], [removal_requested] (CallSpec); [separate], [file_to_file], [converts], [has_conversion] (FsSpec). *)
From Coq.Strings Require Import Byte String.
From Coq Require Import List NArith ZArith Bool PeanoNat Lia.
From Verif Require Import Base BaseFacts Shamir Errors Io HeaderIoSpec StreamSpec Text Util CliErrors Getopts Crypto HeaderCrypto CredSpec FileCrypto KeyFiles Ui UiSpec Paths CliCreds Cli CliSpec Fs Commands FsSpec ConvProofs
  FsProofs3 FsProofs4 FsProofs10 FsProofs11 FsProofs12 ToyCrypto FsCases FsCases2 Program Calls CallSpec CallProofs CallProofs2 CallProofs3 CallProofs4 CallProofs5 CallCases PropCalls ParSpec ParProofs.
Import ListNotations.
Local Open Scope N_scope.

(** Any number of runs, each killed or not, make their calls in any order.  Each call only touches outputs of its own run
    that were not there when the first run began, and removes originals of its own run whose conversions are there. *)
Theorem C73_each_call entry_of lib jobs f0 f at_ done k j e rest w1 : lib_ok lib -> Forall (is_run lib) jobs ->
  Forall (fun j => separate entry_of (b_streams j) /\ file_to_file (b_streams j)) jobs -> apart entry_of jobs -> consistent f0 ->
  together entry_of jobs f0 f at_ done -> nth_error jobs k = Some j -> b_calls j = done k ++ e :: rest -> takes entry_of e (at_ k) w1 ->
  allowed_step entry_of lib (b_streams j) (b_direction j) f0 f (w_fs w1).
Proof. intros Hl Hr Hs Ha Hf H. eapply seen_step; try eassumption. eapply together_seen; eassumption. Qed.
Print Assumptions C73_each_call.

(** If a run ends with success then its files are converted, whatever the other runs have done and will do: this holds
    at the end of the run, and as long as it is followed by other runs only. *)
Theorem C73_reported_success entry_of lib jobs f0 f at_ done k j st : lib_ok lib -> Forall (is_run lib) jobs ->
  Forall (fun j => separate entry_of (b_streams j) /\ file_to_file (b_streams j)) jobs -> apart entry_of jobs -> consistent f0 ->
  together entry_of jobs f0 f at_ done -> nth_error jobs k = Some j -> done k = b_calls j -> b_result j = Some (Ok tt) ->
  In st (b_streams j) -> stream_done entry_of lib (b_direction j) f st.
Proof. intros Hl Hr Hs Ha Hf H. eapply together_done; eassumption. Qed.
Print Assumptions C73_reported_success.

(** At every moment, each file of the runs that was there at the start is as it was; or it is gone, its user has asked
    for that, and its complete conversion is there. *)
Theorem C73_original_or_conversion entry_of lib jobs f0 f at_ done j s : lib_ok lib -> Forall (is_run lib) jobs ->
  Forall (fun j => separate entry_of (b_streams j) /\ file_to_file (b_streams j)) jobs -> apart entry_of jobs -> consistent f0 ->
  together entry_of jobs f0 f at_ done -> In j jobs -> concerns entry_of (b_streams j) s -> f_entries f0 s <> None ->
  intact f0 f s \/
  exists k j st q b, nth_error jobs k = Some j /\ In st (b_streams j) /\ converts entry_of st s q /\ f_entries f s = None /\
    plain_file f0 s b /\ has_conversion entry_of lib (b_direction j) b f q /\ removal_requested (b_policy j) (done k).
Proof.
  intros Hl Hr Hs Ha Hf H Ij Cs Ns. destruct (together_safe entry_of lib jobs f0 Hl Hr Hs Ha Hf f at_ done s H Ns) as [I|(k & j' & st & q & b & A & B & C & D & F & G & K & _)].
  - exists j. auto.
  - left. exact I.
  - right. exists k, j', st, q, b. auto 10.
Qed.
Print Assumptions C73_original_or_conversion.

(** ** Two runs, "rypt --discard-inputs notes" and "rypt --discard-inputs junk.rypt" *)

Lemma alone_together entry_of jobs f0 k j h : nth_error jobs k = Some j -> forall w v, shared entry_of nothing w h v ->
  forall f at_ done rest, together entry_of jobs f0 f at_ done -> at_ k = w -> w_fs w = f -> b_calls j = done k ++ h ++ rest ->
  exists at' done', together entry_of jobs f0 (w_fs v) at' done' /\ at' k = v /\ done' k = done k ++ h /\
    (forall i, i <> k -> done' i = done i /\ w_ui (at' i) = w_ui (at_ i) /\ (w_fs (at_ i) = f -> w_fs (at' i) = w_fs v)).
Proof.
  intros Ej w v H. induction H as [w|e h w w1 w' T H IH|g h w w' [] H IH]; intros f at_ done rest G Ea Ef Ec.
  - subst w. rewrite Ef. exists at_, done. rewrite app_nil_r. auto 10.
  - assert (G1 := tg_call entry_of jobs f0 f at_ done k j e (h ++ rest) w1 G Ej Ec ltac:(rewrite Ea; exact T)).
    destruct (IH _ _ _ rest G1) as (at' & done' & A & B & C & D).
    + rewrite Nat.eqb_refl. reflexivity.
    + reflexivity.
    + rewrite Nat.eqb_refl, <- app_assoc. exact Ec.
    + exists at', done'. split; [exact A|]. split; [exact B|]. split; [rewrite C, Nat.eqb_refl, <- app_assoc; reflexivity|].
      intros i Ni. destruct (D i Ni) as (D1 & D2 & D3). apply Nat.eqb_neq in Ni. rewrite Ni in *. split; [exact D1|]. split; [exact D2|]. intros _. apply D3. reflexivity.
Qed.

Lemma elsewhere entry_of lib streams policy d u r h u' w s : lib_ok lib -> wf_fs (w_fs w) -> separate entry_of streams -> file_to_file streams ->
  crypt_calls lib streams policy false d u r h u' -> ~ concerns entry_of streams s ->
  forall c v, (exists a, h = c ++ a) -> shared entry_of nothing w c v -> intact (w_fs w) (w_fs v) s.
Proof.
  intros Hl W Se Ff T Nc. induction c as [|e c IH] using rev_ind; intros v [a Ea] Sv.
  - inversion Sv as [x|?|? ? ? ? [] ?]; subst. apply intact_refl.
  - destruct (shared_app _ _ _ _ _ _ Sv) as (v1 & S1 & S2). inversion S2 as [|? ? ? v2 ? Tv Sn|? ? ? ? [] ?]; subst. inversion Sn as [x|?|? ? ? ? [] ?]; subst.
    assert (Al : allowed_step entry_of lib streams d (w_fs w) (w_fs v1) (w_fs v)).
    { eapply (C67_each_call entry_of lib streams policy d u r _ u' w c e v1 v Hl W Se Ff T); [exists a; rewrite <- app_assoc; reflexivity| |exact Tv].
      eapply shared_more; [|exact S1]. intros f g []. }
    eapply intact_trans; [apply (IH v1); [exists ([e] ++ a); rewrite <- app_assoc; reflexivity|exact S1]|].
    destruct (Al s) as [K|[(_ & st & q & Is & Eo & Es)|(_ & st & q & b & Is & (p & Ei & Es & _) & _)]]; [exact K| |]; destruct Nc; [exists st, q|exists st, p]; auto.
Qed.
Lemma consistent_alone entry_of w h v : shared entry_of nothing w h v -> consistent (w_fs w) -> consistent (w_fs v).
Proof. intros H. induction H as [w|e h w w1 w' T H IH|g h w w' [] H IH]; intros C; [exact C|]. apply IH. eapply consistent_step; eassumption. Qed.

Local Notation E := (case_names false false).
Definition case_job2 : list io_stream := [case_stream "junk.rypt" "junk.rypt.rypt"].
Lemma case_job2_separate : separate E case_job2.
Proof. intros st st' p q s [<-|[]] [<-|[]] [= <-] [= <-] [= <-]. vm_compute. discriminate. Qed.
Lemma case_job2_files : file_to_file case_job2.
Proof. intros st p [<-|[]] _. discriminate. Qed.
Lemma case_consistent : consistent case_fs.
Proof.
  split.
  - intros s i H. apply case_files in H as [[-> ->]|[-> ->]]; eexists; reflexivity.
  - intros i n l Hn Nd Ne Hl. assert (L1 : n_links n = 1).
    { cbn [case_fs f_nodes] in Hn. destruct (i =? 1); [injection Hn as <-; reflexivity|]. destruct (i =? 2); [injection Hn as <-; reflexivity|discriminate Hn]. }
    rewrite L1. destruct l as [|a [|b l]]; [contradiction|cbn; lia|]. exfalso.
    pose proof (case_files a i (Hl a (or_introl eq_refl))) as [[A1 A2]|[A1 A2]]; pose proof (case_files b i (Hl b (or_intror (or_introl eq_refl)))) as [[B1 B2]|[B1 B2]]; try congruence;
      inversion Nd as [|x y X _]; apply X; left; congruence.
Qed.
Lemma case_jobs_apart u1 r1 h1 e1 u2 r2 h2 e2 :
  apart E [mkJob case_job DeleteFiles case_enc u1 r1 h1 e1; mkJob case_job2 DeleteFiles case_enc u2 r2 h2 e2].
Proof.
  assert (K : forall s, concerns E case_job s -> s = num "notes" \/ s = num "notes.rypt").
  { intros s (st & p & [<-|[]] & [[= <-]|[= <-]] & [= <-]); vm_compute; auto. }
  assert (K2 : forall s, concerns E case_job2 s -> s = num "junk.rypt" \/ s = num "junk.rypt.rypt").
  { intros s (st & p & [<-|[]] & [[= <-]|[= <-]] & [= <-]); vm_compute; auto. }
  assert (D : forall s, concerns E case_job s -> concerns E case_job2 s -> False).
  { intros s A B. apply K in A as [A|A]; apply K2 in B as [B|B]; rewrite A in B; vm_compute in B; discriminate B. }
  intros i j a b s Ea Eb N Ca Cb. destruct i as [|[|[|i]]]; [| |discriminate Ea..]; destruct j as [|[|[|j]]]; try discriminate Eb; try contradiction;
    injection Ea as <-; injection Eb as <-; cbn [b_streams] in Ca, Cb; eauto.
Qed.

(** The first run encrypts "notes" and is about to remove it; then the second encrypts "junk.rypt", removes it and ends;
    then the first removes "notes". *)
Example C73_case : exists h1 u1 h2 u2 b p f at_ done,
  let jobs := [mkJob case_job DeleteFiles case_enc case_ui (Some (Ok tt)) h1 u1; mkJob case_job2 DeleteFiles case_enc case_ui (Some (Ok tt)) h2 u2] in
  Forall (is_run toy_lib) jobs /\ Forall (fun j => separate E (b_streams j) /\ file_to_file (b_streams j)) jobs /\ apart E jobs /\ consistent case_fs /\
  together E jobs case_fs f at_ done /\ happens h1 b (SRemove p (Ok tt)) /\ done 0%nat = b ++ [SRemove p (Ok tt)] /\ done 1%nat = h2 /\
  f_entries case_fs (num "notes") <> None /\ f_entries f (num "notes") = None /\
  f_entries case_fs (num "junk.rypt") <> None /\ f_entries f (num "junk.rypt") = None.
Proof.
  destruct case_removal as (h1 & b & p & w1 & w2 & u1 & T1 & Hb & Ep & Sb & Tk & I1 & N2).
  assert (Hb' := Hb). destruct Hb' as [rest1 Eh1].
  assert (I : forall s, s <> num "notes" -> s <> num "notes.rypt" -> intact case_fs (w_fs w1) s).
  { intros s D1 D2. eapply (elsewhere E toy_lib case_job DeleteFiles case_enc case_ui (Some (Ok tt)) h1 u1 case_world s toy_lib_ok case_wf_fs case_job_separate case_job_files T1) with (c := b); [|exists (SRemove p (Ok tt) :: rest1); exact Eh1|exact Sb].
    intros (st & q & [<-|[]] & [[= <-]|[= <-]] & [= <-]); [apply D1|apply D2]; vm_compute; reflexivity. }
  assert (Sp : spacious (w_fs w1)) by (eapply alone_spacious; [exact Sb|exact case_spacious]).
  assert (Pj : plain_file (w_fs w1) (num "junk.rypt") case_junk) by (eapply plain_intact; [apply I; discriminate|exists 2; split; reflexivity]).
  assert (Nj : f_entries (w_fs w1) (num "junk.rypt.rypt") = None) by (rewrite (proj1 (I (num "junk.rypt.rypt") ltac:(discriminate) ltac:(discriminate))); reflexivity).
  assert (C1 : consistent (w_fs w1)) by (eapply consistent_alone; [exact Sb|exact case_consistent]).
  set (w := mkWorld (w_fs w1) [] case_ui [] []).
  destruct (total_crypt E toy_lib toy_lib_ok case_job2 DeleteFiles false case_enc w Sp) as ((r & w' & H) & _).
  destruct (crypt_ready E toy_lib toy_lib_ok eq_refl _ _ _ _ _ _ H (consistent_wf _ C1) eq_refl Sp) as [[_ X]|(A & B & C)].
  - intros st [<-|[]]. exists (at_ "junk.rypt"), (num "junk.rypt"), case_junk, (at_ "junk.rypt.rypt"), (num "junk.rypt.rypt").
    split; [reflexivity|]. split; [reflexivity|]. split; [exact Pj|]. split; [apply case_convertible|]. split; [reflexivity|]. split; [reflexivity|exact Nj].
  - intros l1 st l2 st' l3 q q' t Es. destruct (case_single _ _ _ _ _ _ _ Es).
  - discriminate X.
  - destruct A as [->|[A _]]; [|discriminate A].
    assert (Gj : f_entries (w_fs w') (num "junk.rypt") = None) by (eapply (C eq_refl); [left; reflexivity|reflexivity|reflexivity]). clear B C.
    destruct (l_crypt E toy_lib _ _ _ _ _ _ _ H) as (h2 & T2 & S2).
    set (jobs := [mkJob case_job DeleteFiles case_enc case_ui (Some (Ok tt)) h1 u1; mkJob case_job2 DeleteFiles case_enc case_ui (Some (Ok tt)) h2 (w_ui w')]).
    destruct (alone_together E jobs case_fs 0%nat _ b eq_refl _ _ Sb case_fs (fun _ => case_world) (fun _ => []) (SRemove p (Ok tt) :: rest1)) as (at1 & done1 & G1 & A1 & D1 & O1);
      [constructor; reflexivity|reflexivity|reflexivity|exact Eh1|].
    destruct (O1 1%nat) as (D1' & U1 & F1); [discriminate|]. specialize (F1 eq_refl).
    destruct (alone_again E _ _ _ nothing eq_refl S2 (at1 1%nat) F1 U1) as (v2 & S2' & F2 & _).
    destruct (alone_together E jobs case_fs 1%nat _ h2 eq_refl _ _ S2' (w_fs w1) at1 done1 []) as (at2 & done2 & G2 & A2 & D2 & O2);
      [exact G1|reflexivity|exact F1|rewrite D1', app_nil_r; reflexivity|].
    destruct (O2 0%nat) as (D2' & _ & F3); [discriminate|]. rewrite A1 in F3. specialize (F3 eq_refl).
    assert (Nn : f_entries (w_fs v2) (num "notes") = Some (EFile 1)).
    { destruct (elsewhere E toy_lib case_job2 DeleteFiles case_enc case_ui (Some (Ok tt)) h2 (w_ui w') w (num "notes")) with (c := h2) (v := w') as [K _];
        [exact toy_lib_ok|exact (consistent_wf _ C1)|exact case_job2_separate|exact case_job2_files|exact T2| |exists []; symmetry; apply app_nil_r|exact S2|].
      - intros (st & q & [<-|[]] & [[= <-]|[= <-]] & X); vm_compute in X; discriminate X.
      - rewrite F2, K. cbn [w w_fs]. rewrite (proj1 I1). reflexivity. }
    assert (Tk' : takes E (SRemove p (Ok tt)) (at2 0%nat) (set_fs (at2 0%nat) (unlink (w_fs (at2 0%nat)) (num "notes")))).
    { cbn [takes]. unfold remove_file. rewrite Ep, F3, Nn. right. split; reflexivity. }
    assert (G3 := tg_call E jobs case_fs _ at2 done2 0%nat _ (SRemove p (Ok tt)) rest1 _ G2 eq_refl ltac:(rewrite D2', D1; exact Eh1) Tk').
    exists h1, u1, h2, (w_ui w'), b, p. eexists. eexists. eexists.
    assert (Fr : Forall (is_run toy_lib) jobs) by (constructor; [exact T1|constructor; [exact T2|constructor]]).
    split; [exact Fr|]. split; [constructor; [exact (conj case_job_separate case_job_files)|constructor; [exact (conj case_job2_separate case_job2_files)|constructor]]|].
    split; [apply case_jobs_apart|]. split; [exact case_consistent|]. split; [exact G3|]. split; [exact Hb|].
    split; [cbn [Nat.eqb]; rewrite D2', D1; reflexivity|]. split; [cbn [Nat.eqb]; rewrite D2, D1'; reflexivity|].
    split; [discriminate|]. split; [reflexivity|]. split; [discriminate|].
    cbn [set_fs w_fs unlink f_entries]. unfold update. destruct (num "junk.rypt" =? num "notes"); [reflexivity|]. rewrite F3, F2. exact Gj.
Qed.

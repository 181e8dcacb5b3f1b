(** Proofs about how the terminal output of a run is divided (C85). *)
From Coq.Strings Require Import Byte String.
From Coq Require Import List NArith ZArith Bool Permutation Lia.
From Verif Require Import Base BaseFacts Text Util UtilSpec UtilProofs UtilProofs2 CliErrors Getopts Crypto HeaderCrypto KeyFiles KeyProofs Io FileCrypto Ui UiSpec UiProofs2 CliCreds Paths Cli Fs Commands PathSpec OptSpec CmdSpec CredSpec FsSpec FsProofs FsProofs2 FsProofs3 FsProofs4 ShowSpec ShowProofs ShowProofs2 QuietSpec QuietProofs QuietProofs2 QuietProofs3 SectionSpec.
Import ListNotations.
Local Open Scope N_scope.

Definition fine (u : ui) : Prop := u_room u = None /\ (0 <= u_verbosity u)%Z.
Lemma alike_fine u v : alike u v -> fine u -> fine v.
Proof. intros (_ & _ & C & D) [A B]. split; [auto|]. rewrite C. exact B. Qed.
Definition adds (u u' : ui) (l : list message) : Prop := fine u' /\ exists tr, u_trace u' = u_trace u ++ tr /\ printed tr = l.
Lemma adds_trans u v w a b : adds u v a -> adds v w b -> adds u w (a ++ b).
Proof.
  intros (_ & t1 & E1 & P1) (F & t2 & E2 & P2). split; [exact F|]. exists (t1 ++ t2). split; [rewrite E2, E1; apply eq_sym, app_assoc|]. rewrite printed_app, P1, P2. reflexivity.
Qed.
(** What a computation prints, together with its result. *)
Definition prints {A} (m : io A) (Q : outcome cerr A -> list message -> Prop) : Prop := forall w r w', fine (w_ui w) -> m w r w' ->
  exists l, adds (w_ui w) (w_ui w') l /\ Q r l.
Lemma prints_weaken {A} (m : io A) (Q R : outcome cerr A -> list message -> Prop) : prints m Q -> (forall r l, Q r l -> R r l) -> prints m R.
Proof. intros H X w r w' F E. destruct (H w r w' F E) as (l & Hl & Hq). exists l. auto. Qed.
Lemma prints_bind {A B} (m : io A) (f : A -> io B) Q :
  prints m (fun r l => match r with Ok a => prints (f a) (fun r' l' => Q r' (l ++ l')) | Err e => Q (Err e) l | Panic => Q Panic l end) -> prints (io_bind m f) Q.
Proof.
  intros H w r w' F [(a & w1 & E & E')|[(e & E & ->)|[E ->]]]; destruct (H _ _ _ F E) as (l & Hl & Hq); [|eauto..].
  destruct (Hq _ _ _ (proj1 Hl) E') as (l' & Hl' & Hq'). exists (l ++ l'). split; [eapply adds_trans; eassumption|exact Hq'].
Qed.
Lemma prints_try {A} (m : io A) Q : prints m (fun r l => match r with Panic => Q Panic l | x => Q (Ok x) l end) -> prints (io_try m) Q.
Proof.
  intros H w r w' F [(x & N & E & ->)|[E ->]]; destruct (H _ _ _ F E) as (l & Hl & Hq); exists l; (split; [exact Hl|]); [|exact Hq].
  destruct x; [exact Hq|exact Hq|contradiction].
Qed.
Lemma adds_none u u' : fine u -> alike u u' -> u_trace u' = u_trace u -> adds u u' [].
Proof. intros F A E. split; [eapply alike_fine; eassumption|]. exists []. rewrite app_nil_r. auto. Qed.
Lemma prints_lift {A} (x : outcome cerr A) (Q : _ -> _ -> Prop) : Q x [] -> prints (io_lift x) Q.
Proof. intros H w r w' F [-> ->]. exists []. split; [apply adds_none; [exact F|apply alike_refl|reflexivity]|exact H]. Qed.
Lemma prints_ret {A} (a : A) (Q : _ -> _ -> Prop) : Q (Ok a) [] -> prints (io_ret a) Q.
Proof. apply prints_lift. Qed.
Definition no_message (m : message) : Prop := False.
Lemma prints_silent {A} (m : io A) (Q : _ -> _ -> Prop) : tells no_message m -> gentle m -> (forall r, Q r []) -> prints m Q.
Proof.
  intros T G H w r w' F E. exists []. split; [|apply H]. destruct (G _ _ _ E) as [Al _]. split; [eapply alike_fine; eassumption|].
  destruct (proj1 (T _ _ _ E)) as (tr & Et & _ & _ & Hm). exists tr. split; [exact Et|]. destruct (printed tr) as [|m' l]; [reflexivity|]. destruct (Hm m' (or_introl eq_refl)).
Qed.
Lemma fine_log u m : fine u -> adds u (log u (Printed m)) [m].
Proof. intros F. split; [exact F|]. exists [Printed m]. split; reflexivity. Qed.
Lemma fine_println t u : fine u -> ui_println 0 t u = (Ok tt, log u (Printed (MLine t))).
Proof. intros [R V]. unfold ui_println, will_print, emit. rewrite R, (proj2 (Z.leb_le _ _) V). reflexivity. Qed.
Lemma fine_error e u : fine u -> print_error e u = (Ok tt, log u (Printed (MError e))).
Proof. intros [R V]. unfold print_error, will_print, ERROR_VERBOSITY, emit. rewrite R. destruct (Z.leb_spec (-1) (u_verbosity u)); [reflexivity|lia]. Qed.
Lemma prints_line t (Q : _ -> _ -> Prop) : Q (Ok tt) [MLine t] -> prints (io_ui (ui_println 0 t)) Q.
Proof. intros H w r w' F [-> ->]. rewrite (fine_println _ _ F). exists [MLine t]. split; [apply fine_log, F|exact H]. Qed.
Lemma prints_line' t (Q : _ -> _ -> Prop) : Q (Ok tt) [MLine t] -> prints (io_ui (ignore (ui_println 0 t))) Q.
Proof. intros H w r w' F [-> ->]. unfold ignore. rewrite (fine_println _ _ F). exists [MLine t]. split; [apply fine_log, F|exact H]. Qed.
Lemma prints_error e (Q : _ -> _ -> Prop) : Q (Ok tt) [MError e] -> prints (io_ui (print_error e)) Q.
Proof. intros H w r w' F [-> ->]. rewrite (fine_error _ _ F). exists [MError e]. split; [apply fine_log, F|exact H]. Qed.
Lemma prints_error' e (Q : _ -> _ -> Prop) : Q (Ok tt) [MError e] -> prints (io_ui (ignore (print_error e))) Q.
Proof. intros H w r w' F [-> ->]. unfold ignore. rewrite (fine_error _ _ F). exists [MError e]. split; [apply fine_log, F|exact H]. Qed.

Section WithEnvironment.
Variable entry_of : names.
Variable lib : crypto_lib.

Lemma adds_progress lines : forall u, fine u -> exists k, adds u (progress_lines lines u) (repeat MProgress k).
Proof.
  induction lines as [|n IH]; intros u F; cbn [progress_lines].
  - exists 0%nat. apply adds_none; [exact F|apply alike_refl|reflexivity].
  - unfold println_progress. destruct (u_progress_enabled u); [|apply IH, F].
    unfold will_print, emit. destruct F as [R V]. rewrite R, (proj2 (Z.leb_le _ _) V). cbn [snd].
    assert (A : adds u (log u (Printed MProgress)) [MProgress]) by (apply fine_log; split; assumption).
    destruct (IH _ (proj1 A)) as (k & Hk). exists (S k). exact (adds_trans _ _ _ _ _ A Hk).
Qed.
Lemma prints_convert d rd wr (Q : _ -> _ -> Prop) : (forall r k, Q r (repeat MProgress k)) -> prints (convert entry_of lib d rd wr) Q.
Proof.
  intros H w r w' F (er & src & room & fl & r0 & snk & lines & _ & _ & _ & _ & X).
  assert (P : forall out, exists k, adds (w_ui w) (w_ui (let w1 := write_out wr out w in set_ui w1 (progress_lines lines (w_ui w1)))) (repeat MProgress k)).
  { intros out. cbv zeta. cbn [set_ui w_ui]. rewrite write_ui. apply adds_progress, F. }
  destruct X as [[-> ->]|(-> & _ & out & _ & ->)].
  - destruct (P (w_out snk)) as (k & Hk). exists (repeat MProgress k). auto.
  - destruct (P out) as (k & Hk). exists (repeat MProgress k). auto.
Qed.
(** Removing a file: an error is printed if it does not work. *)
Lemma remove_says p force w r w' : fine (w_ui w) -> remove_cb entry_of p force w r w' -> r = Ok tt /\
  exists more, (length more <= if force then 0 else 1)%nat /\ adds (w_ui w) (w_ui w') (map MError more) /\ (force = false -> more = [] -> w_refused w' = w_refused w).
Proof.
  intros F [(x & w1 & T & G)|[(e & T & _)|(T & ->)]].
  - assert (K : w_ui w1 = w_ui w /\ (forall u, x = Ok u -> w_refused w1 = w_refused w) /\ x <> Panic).
    { destruct T as [(y & N & E & E')|[_ E']]; [injection E' as ->|discriminate E']. unfold remove_file in E. destruct (entry_number entry_of p) as [s|]; [destruct (f_entries (w_fs w) s) as [[]|]|].
      1,2: destruct E as [(_ & -> & ->)|[-> ->]]; repeat split; auto; discriminate.
      all: destruct E as [-> ->]; repeat split; auto; discriminate. }
    destruct K as (K1 & K2 & K3).
    assert (N0 : adds (w_ui w) (w_ui w1) []) by (rewrite K1; apply adds_none; [exact F|apply alike_refl|reflexivity]).
    destruct x as [a|e|]; [| |congruence].
    + destruct G as [-> ->]. split; [reflexivity|]. exists []. split; [cbn; lia|]. split; [exact N0|]. intros _ _. eapply K2. reflexivity.
    + destruct force; destruct G as [-> ->].
      * split; [reflexivity|]. exists []. split; [cbn; lia|]. split; [exact N0|discriminate].
      * rewrite K1. unfold ignore. rewrite (fine_error _ _ F). cbn [fst snd]. split; [reflexivity|]. exists [e]. split; [cbn; lia|]. split; [apply fine_log, F|discriminate].
  - destruct T as [(y & N & _ & E)|[_ E]]; discriminate E.
  - destruct T as [(y & N & _ & E)|[X _]]; [discriminate E|].
    exfalso. unfold remove_file in X. destruct (entry_number entry_of p) as [s|]; [destruct (f_entries (w_fs w) s) as [[]|]|].
    1,2: destruct X as [(_ & X & _)|[X _]]; discriminate X.
    all: destruct X as [X _]; discriminate X.
Qed.

Definition attempted (h : text) (r : outcome cerr (outcome cerr unit * option path)) (l : list message) : Prop :=
  (forall e, r <> Err e) /\ (r <> Panic -> exists lines, l = MLine h :: repeat MProgress lines).
Lemma prints_attempt k n s force d : prints (attempt entry_of lib k n s force d) (attempted (file_header k n s)).
Proof.
  assert (One : forall r h, (forall e, r <> Err e) -> attempted h r [MLine h]) by (intros r h N; split; [exact N|]; intros _; exists 0%nat; reflexivity).
  unfold attempt. apply prints_bind, prints_try. apply prints_bind, prints_line'. apply prints_bind, prints_lift.
  assert (NE : forall e, @Ok cerr _ (@Err cerr unit e, @None path) <> Err e) by discriminate.
  destruct (s_output s) as [o|e|]; [|apply prints_ret, One; discriminate|apply One; discriminate].
  apply prints_bind, prints_silent; [apply tells_open_input|apply gentle_open_input|]. intros [rd|e|]; [|apply prints_ret, One; discriminate|apply One; discriminate].
  apply prints_bind, prints_silent; [apply tells_open_output|apply gentle_open_output|]. intros [wr|e|]; [|apply prints_ret, One; discriminate|apply One; discriminate].
  apply prints_ret. cbn [app]. apply prints_bind, prints_try, prints_convert. intros r j.
  assert (M : forall x : outcome cerr unit, attempted (file_header k n s) (Ok (x, output_cleanup o)) (MLine (file_header k n s) :: repeat MProgress j)) by (intros x; split; [discriminate|]; intros _; exists j; reflexivity).
  destruct r as [a|e|]; [| |split; [discriminate|congruence]]; apply prints_ret; rewrite app_nil_r; apply M.
Qed.

Lemma header_heading k n s : heading k n s (file_header k n s).
Proof.
  exists (input_path (s_input s)), (match s_output s with Ok o => output_path o | _ => lit "(error)" end), (dec (N.of_nat k + 1)), (dec (N.of_nat n)).
  split; [destruct (s_input s); reflexivity|]. split; [destruct (s_output s) as [[]| |]; reflexivity|]. split; [apply dec_spec|]. split; [apply dec_spec|reflexivity].
Qed.
(** One round of the loop. *)
Lemma step_says k n s force d w r w' : fine (w_ui w) -> step entry_of lib k n s force d w r w' -> r <> Panic ->
  exists errors part, r = Ok (match errors with [] => input_cleanup (s_input s) | _ => [] end, firstn 1 errors) /\
    adds (w_ui w) (w_ui w') part /\ section force k n s errors (part ++ [MLine []]) /\
    (lib_ok lib -> force = false -> (length errors <= 1)%nat -> w_refused w' = w_refused w).
Proof.
  intros F H N. destruct H as [([res cb] & w1 & H1 & H)|[(e & H1 & _)|(H1 & ->)]]; [| |congruence].
  2:{ destruct (prints_attempt _ _ _ _ _ _ _ _ F H1) as (l & _ & [Ne _]). destruct (Ne e eq_refl). }
  destruct (prints_attempt _ _ _ _ _ _ _ _ F H1) as (l & A1 & [_ Hl]). destruct (Hl ltac:(discriminate)) as (j & ->). clear Hl.
  assert (Rf : lib_ok lib -> force = false -> w_refused w1 = w_refused w).
  { intros Hl ->. destruct (attempt_spec entry_of lib Hl _ _ _ _ _ H1) as [((_ & _ & Q) & _)|(q & t & i & out & _ & _ & _ & _ & Q & _)]; exact Q. }
  destruct res as [a|e|].
  - destruct H as [-> ->]. exists [], (MLine (file_header k n s) :: repeat MProgress j). split; [reflexivity|]. split; [exact A1|]. split; [|intros Hl Hf _; apply Rf; assumption].
    split; [destruct force; cbn; lia|]. exists (file_header k n s), j. split; [apply header_heading|]. reflexivity.
  - destruct H as [(u & w2 & [Hr ->] & H)|[(e2 & [Hr _] & ->)|([Hr _] & ->)]]; unfold ignore in *; rewrite (fine_error _ _ (proj1 A1)) in *; try discriminate Hr.
    cbn [snd] in H. pose proof (fine_log _ (MError e) (proj1 A1)) as A2.
    assert (X : exists more, r = Ok ([], [e]) /\ (length more <= if force then 0 else 1)%nat /\ adds (log (w_ui w1) (Printed (MError e))) (w_ui w') (map MError more) /\
       (force = false -> more = [] -> w_refused w' = w_refused w1)).
    { destruct H as [(u' & w3 & H3 & [-> ->])|[(e2 & H3 & ->)|(H3 & ->)]].
      - destruct cb as [p|].
        + destruct (remove_says p force _ _ _ (proj1 A2 : fine (w_ui (set_ui w1 (log (w_ui w1) (Printed (MError e)))))) H3) as (_ & more & B1 & B2 & B3). exists more. auto.
        + destruct H3 as [_ ->]. exists []. split; [reflexivity|]. split; [cbn; lia|]. split; [|auto]. apply adds_none; [apply A2|apply alike_refl|reflexivity].
      - destruct cb as [p|]; [destruct (remove_says p force _ _ _ (proj1 A2 : fine (w_ui (set_ui w1 (log (w_ui w1) (Printed (MError e)))))) H3) as (B & _)|destruct H3 as [B _]]; discriminate B.
      - congruence. }
    destruct X as (more & -> & B1 & B2 & B3). exists (e :: more), ((MLine (file_header k n s) :: repeat MProgress j) ++ [MError e] ++ map MError more).
    split; [reflexivity|]. split; [eapply adds_trans; [exact A1|eapply adds_trans; eassumption]|]. split.
    + split; [destruct force; cbn [length]; lia|]. exists (file_header k n s), j. split; [apply header_heading|]. cbn [app map]. rewrite <- !app_assoc. reflexivity.
    + intros Hl Hf Len. rewrite <- (Rf Hl Hf). apply B3; [exact Hf|]. destruct more; [reflexivity|cbn in Len; lia].
  - destruct H as [-> _]. congruence.
Qed.

(** The loop. *)
Definition failures (parts : list (list cerr * list message)) : list cerr := flat_map (fun part => firstn 1 (fst part)) parts.
Definition cleanups (streams : list io_stream) (parts : list (list cerr * list message)) : list path :=
  flat_map (fun x => match fst (snd x) with [] => input_cleanup (s_input (fst x)) | _ => [] end) (combine streams parts).
(** Every part is what a round printed; before and after are further rounds. *)
Record round (force : bool) (d : direction_opts) (k n : nat) (streams : list io_stream) (w w' : world) (i : nat) (s : io_stream) (part : list cerr * list message) (w0 w1 : world) : Prop := mkRound {
  rd_section : section force (k + i) n s (fst part) (snd part);
  rd_step : exists x, step entry_of lib (k + i) n s force d w0 (Ok x) w1 /\ x = (match fst part with [] => input_cleanup (s_input s) | _ => [] end, firstn 1 (fst part));
  rd_refused : lib_ok lib -> force = false -> (length (fst part) <= 1)%nat -> w_refused w1 = w_refused w0;
  rd_before : lib_ok lib -> force = false -> grows w w0 /\ forall t, f_entries (w_fs w0) t <> None -> f_entries (w_fs w) t <> None \/
    exists j s' q, j <> i /\ nth_error streams j = Some s' /\ s_output s' = Ok (OFile q) /\ entry_of q = Some t;
  rd_after : lib_ok lib -> force = false -> grows w1 w' /\ forall t, f_entries (w_fs w') t <> None -> f_entries (w_fs w1) t <> None \/
    exists j s' q, j <> i /\ nth_error streams j = Some s' /\ s_output s' = Ok (OFile q) /\ entry_of q = Some t
}.
Lemma process_says force d n streams : forall k w r w', fine (w_ui w) -> process entry_of lib k n streams force d w r w' -> r <> Panic ->
  exists parts, r = Ok (cleanups streams parts, failures parts) /\ length parts = length streams /\ adds (w_ui w) (w_ui w') (concat (map snd parts)) /\
    forall i s part, nth_error streams i = Some s -> nth_error parts i = Some part -> exists w0 w1, round force d k n streams w w' i s part w0 w1.
Proof.
  induction streams as [|s ss IH]; intros k w r w' F H N; cbn [process] in H.
  { destruct H as [-> ->]. exists []. split; [reflexivity|]. split; [reflexivity|]. split; [apply adds_none; [exact F|apply alike_refl|reflexivity]|]. intros [|i] s part E; discriminate E. }
  destruct H as [(x & w1 & H1 & H)|[(e & H1 & _)|(H1 & ->)]]; [| |congruence].
  2:{ destruct (step_says _ _ _ _ _ _ _ _ F H1) as (? & ? & X & _); discriminate. }
  destruct (step_says _ _ _ _ _ _ _ _ F H1 ltac:(discriminate)) as (errors & part & [= ->] & A1 & S1 & R1).
  destruct H as [(u & w2 & [Hr ->] & H)|[(e2 & [Hr _] & _)|([Hr _] & _)]]; rewrite (fine_println _ _ (proj1 A1)) in *; try discriminate Hr.
  cbn [snd] in H. pose proof (fine_log _ (MLine []) (proj1 A1)) as A2. set (w2 := set_ui w1 (log (w_ui w1) (Printed (MLine [])))) in *.
  assert (A2' : adds (w_ui w1) (w_ui w2) [MLine []]) by exact A2. clear A2.
  assert (Q2 : same_files w1 w2) by apply same_ui.
  destruct H as [(y & w3 & H3 & H)|[(e2 & H3 & ->)|(H3 & ->)]]; [| |congruence].
  2:{ destruct (IH _ _ _ _ (proj1 A2') H3 ltac:(discriminate)) as (? & X & _). discriminate X. }
  destruct (IH _ _ _ _ (proj1 A2') H3 ltac:(discriminate)) as (parts & [= ->] & Len & A3 & Rd). destruct H as [-> ->].
  exists ((errors, part ++ [MLine []]) :: parts). split; [reflexivity|]. split; [cbn [length]; rewrite Len; reflexivity|].
  split; [cbn [map snd concat]; eapply adds_trans; [eapply adds_trans; eassumption|exact A3]|].
  intros [|i] s' p'; cbn [nth_error].
  - intros [= <-] [= <-]. exists w, w1. constructor; rewrite ?Nat.add_0_r; cbn [fst snd].
    + exact S1.
    + eexists. split; [exact H1|reflexivity].
    + exact R1.
    + intros _ _. split; [apply same_grows, same_refl|auto].
    + intros Hl ->. destruct (process_spec entry_of lib Hl _ _ _ _ _ H3) as (G & Nw & _). split; [eapply grows_trans; [apply same_grows, Q2|exact G]|].
      intros t Ht. destruct (Nw t Ht) as [I|(st & q & I & Eo & Et)]; [left; rewrite <- (proj1 Q2); exact I|]. apply In_nth_error in I as (j & I). right. exists (S j), st, q. auto.
  - intros E1 E2. destruct (Rd i s' p' E1 E2) as (w0 & w4 & [B1 B2 B3 B4 B5]). exists w0, w4. constructor; rewrite ?Nat.add_succ_r; try assumption.
    + intros Hl Hf. destruct (B4 Hl Hf) as [G Nw]. subst force. destruct (step_spec entry_of lib Hl _ _ _ _ _ H1) as (G1 & N1 & _).
      split; [eapply grows_trans; [exact G1|eapply grows_trans; [apply same_grows, Q2|exact G]]|].
      intros t Ht. destruct (Nw t Ht) as [I|(j & st & q & Nj & I & K)]; [|right; exists (S j), st, q; auto].
      rewrite (proj1 Q2) in I. destruct (N1 t I) as [I'|(q & K)]; [auto|]. right. exists 0%nat, s, q. auto.
    + intros Hl Hf. destruct (B5 Hl Hf) as [G Nw]. split; [exact G|]. intros t Ht. destruct (Nw t Ht) as [I|(j & st & q & Nj & I & K)]; [auto|]. right. exists (S j), st, q. auto.
Qed.

Lemma prints_shows {A} S (m : io A) (Q : _ -> _ -> Prop) : tells S m -> gentle m -> (forall r l, Forall S l -> Q r l) -> prints m Q.
Proof.
  intros T G H w r w' F E. destruct (G _ _ _ E) as [Al _]. destruct (proj1 (T _ _ _ E)) as (tr & Et & _ & _ & Hm). exists (printed tr). split.
  - split; [eapply alike_fine; eassumption|]. exists tr. auto.
  - apply H. apply Forall_forall. exact Hm.
Qed.
Lemma prints_and {A} (m : io A) (P : outcome cerr A -> Prop) (Q : _ -> _ -> Prop) : (forall w r w', m w r w' -> P r) -> prints m (fun r l => P r -> Q r l) -> prints m Q.
Proof. intros H X w r w' F E. destruct (X w r w' F E) as (l & Hl & Hq). exists l. split; [exact Hl|]. eapply Hq, H, E. Qed.
Lemma remove_cb_ok p force w r w' : remove_cb entry_of p force w r w' -> r = Ok tt.
Proof.
  intros [(x & w1 & T & G)|[(e & T & _)|(T & ->)]].
  - destruct T as [(y & N & _ & E)|[_ E]]; [injection E as ->|discriminate E].
    destruct y as [a|e|]; try (destruct G as [-> _]; reflexivity). destruct force; destruct G as [-> _]; [reflexivity|]. unfold ignore, print_error, emit. destruct (will_print _ _); [|reflexivity]. destruct (u_room _) as [[]|]; reflexivity.
  - destruct T as [(y & N & _ & E)|[_ E]]; discriminate E.
  - destruct T as [(y & N & _ & E)|[X _]]; [discriminate E|].
    exfalso. unfold remove_file in X. destruct (entry_number entry_of p) as [s|]; [destruct (f_entries (w_fs w) s) as [[]|]|].
    1,2: destruct X as [(_ & X & _)|[X _]]; discriminate X.
    all: destruct X as [X _]; discriminate X.
Qed.
Lemma remove_all_ok cbs force : forall w r w', remove_all entry_of cbs force w r w' -> r = Ok tt.
Proof.
  induction cbs as [|p cbs IH]; cbn [remove_all]; intros w r w' H; [apply H|].
  destruct H as [([] & w1 & _ & H)|[(e & H & ->)|[H ->]]]; [eapply IH, H|apply remove_cb_ok in H; discriminate H..].
Qed.
Definition is_error (m : message) : Prop := exists e, m = MError e.
(** What a run prints after the sections. *)
Definition closes (policy : cleanup_policy) (nothing : Prop) (tail : list message) : Prop :=
  Forall closing tail /\ (policy = DeleteFiles -> Forall is_error tail) /\ (policy = KeepFiles \/ nothing -> tail = []).
(** crypt.rs:91-113 *)
Definition rest (policy : cleanup_policy) (force : bool) (cbs : list path) (errors : list cerr) : io unit :=
  let! _ :=
    match cbs with
    | [] => io_ret tt
    | _ =>
        let! should_delete :=
          match policy with
          | KeepFiles => io_ret false
          | DeleteFiles => io_ret true
          | PromptUser =>
              let! answer := io_ui (read_prompt_bool 0 question false) in
              io_ret (match answer with Some b => b | None => false end)
          end in
        if should_delete : bool then remove_all entry_of cbs force else io_ret tt
    end in
  io_lift (match errors with [] => Ok tt | _ => Err CComposite end).
Lemma rest_files policy force cbs errors w r w' : rest policy force cbs errors w r w' ->
  same_files w w' \/ exists w2, same_files w w2 /\ remove_all entry_of cbs force w2 (Ok tt) w'.
Proof.
  assert (K : forall r1 w1, match cbs with [] => io_ret tt | _ => let! should_delete :=
          match policy with KeepFiles => io_ret false | DeleteFiles => io_ret true
          | PromptUser => let! answer := io_ui (read_prompt_bool 0 question false) in io_ret (match answer with Some b => b | None => false end) end in
        if should_delete : bool then remove_all entry_of cbs force else io_ret tt end w r1 w1 ->
      same_files w w1 \/ exists w2, same_files w w2 /\ remove_all entry_of cbs force w2 (Ok tt) w1).
  { intros r1 w1 H. destruct cbs as [|p cbs]; [destruct H as [_ ->]; left; apply same_refl|].
    assert (D : forall r2 w2, match policy with KeepFiles => io_ret false | DeleteFiles => io_ret true
          | PromptUser => let! answer := io_ui (read_prompt_bool 0 question false) in io_ret (match answer with Some b => b | None => false end) end w r2 w2 -> same_files w w2).
    { destruct policy; [intros r2 w2; apply quiet_ret..|]. intros r2 w2. apply quiet_bind; [apply quiet_ui|intros a; apply quiet_ret]. }
    destruct H as [(b & w2 & H2 & H)|[(e & H2 & _)|(H2 & _)]]; [|left; eapply D, H2..].
    destruct b; [|destruct H as [_ ->]; left; eapply D, H2]. right. exists w2. split; [eapply D, H2|]. rewrite <- (remove_all_ok _ _ _ _ _ H). exact H. }
  intros [(u & w1 & H & [_ ->])|[(e & H & _)|(H & _)]]; eapply K, H.
Qed.
Lemma prints_rest policy force cbs errors : prints (rest policy force cbs errors)
  (fun r tail => r <> Panic -> closes policy (cbs = []) tail /\ (r = Ok tt -> errors = []) /\ (r = Err CComposite -> errors <> []) /\
     (forall e, r = Err e -> e <> CComposite -> policy = PromptUser /\ cbs <> [])).
Proof.
  assert (Cq : closing (MPrompt (lit "Remove original file(s)? [y/N]: "))) by (left; reflexivity).
  assert (Ca : closing (MLine (lit "Invalid input, please enter 'y' or 'n'."))) by (right; left; reflexivity).
  assert (Ce : forall e, harmless e -> closing (MError e)) by (intros e _; right; right; exists e; reflexivity).
  unfold rest. set (Q := fun (r : outcome cerr unit) (l : list message) => _).
  assert (K : forall r tail, closes policy (cbs = []) tail -> (r = Ok tt -> errors = []) -> (r = Err CComposite -> errors <> []) ->
    (forall e, r = Err e -> e <> CComposite -> policy = PromptUser /\ cbs <> []) -> Q r tail) by (intros r tail H1 H2 H3 H4 _; auto).
  assert (Fin : forall tail, closes policy (cbs = []) tail -> prints (io_lift match errors with [] => Ok tt | _ => Err CComposite end) (fun r l => Q r (tail ++ l))).
  { intros tail H. apply prints_lift. rewrite app_nil_r. apply K; [exact H| | |]; destruct errors; congruence. }
  assert (Fail : forall e tail, policy = PromptUser -> cbs <> [] -> closes policy (cbs = []) tail -> e <> CComposite -> Q (Err e) tail) by (intros e tail HP HC H N; apply K; [exact H|congruence|congruence|auto]).
  assert (NP : forall tail, Q Panic tail) by (intros tail N; congruence).
  assert (Nil : closes policy (cbs = []) []) by (repeat split; constructor).
  apply prints_bind. destruct cbs as [|p cbs]; [apply prints_ret, Fin, Nil|].
  assert (Rm : forall (tail : list message) (Q' : outcome cerr unit -> list message -> Prop),
     (forall r more, r = Ok tt -> Forall is_error more -> Q' r (tail ++ more)) -> prints (remove_all entry_of (p :: cbs) force) (fun r l => Q' r (tail ++ l))).
  { intros tail Q' H. apply (prints_and _ (fun r => r = Ok tt)); [intros w r w'; apply remove_all_ok|].
    apply (prints_shows is_error); [apply tells_remove_all; intros e _; exists e; reflexivity|apply gentle_remove_all|]. intros r l Hl N. apply H; assumption. }
  assert (Weak : forall more, Forall is_error more -> Forall closing more) by (intros more; apply Forall_impl; intros m H; right; right; exact H).
  assert (Cl : forall asked more, policy = DeleteFiles /\ asked = [] \/ policy = PromptUser -> Forall closing asked -> Forall is_error more -> closes policy (p :: cbs = []) (asked ++ more)).
  { intros asked more Hp' Ha Hm. split; [apply Forall_app; auto|]. split.
    - intros E. destruct Hp' as [[_ ->]|E']; [exact Hm|congruence].
    - intros [E|E]; [|discriminate E]. destruct Hp' as [[E' _]|E']; congruence. }
  assert (After : forall asked, policy = DeleteFiles /\ asked = [] \/ policy = PromptUser -> Forall closing asked ->
    prints (remove_all entry_of (p :: cbs) force) (fun r l => match r with
      | Ok _ => prints (io_lift match errors with [] => Ok tt | _ => Err CComposite end) (fun r' l' => Q r' ((asked ++ l) ++ l'))
      | Err e => Q (Err e) (asked ++ l) | Panic => Q Panic (asked ++ l) end)).
  { intros asked Hp' Ha. apply (Rm asked (fun r l => match r with
      | Ok _ => prints (io_lift match errors with [] => Ok tt | _ => Err CComposite end) (fun r' l' => Q r' (l ++ l'))
      | Err e => Q (Err e) l | Panic => Q Panic l end)). intros [u|e|] more N Hm; [apply Fin|discriminate N|apply NP]; apply Cl; assumption. }
  apply prints_bind. destruct policy.
  - apply prints_ret, prints_ret, Fin, Nil.
  - apply prints_ret. apply (After []); [left; split; reflexivity|constructor].
  - apply prints_bind. apply (prints_and _ (fun r => r <> Err CComposite)); [intros w r w' [-> _]; apply single_question|].
    apply (prints_shows closing); [apply tells_ui, says_question; assumption|apply gentle_ui, mild_question|]. intros r asked Ha N.
    assert (C0 : closes PromptUser (p :: cbs = []) asked) by (rewrite <- (app_nil_r asked); apply Cl; [right; reflexivity|exact Ha|constructor]).
    destruct r as [b|e|]; [|apply Fail; [reflexivity|discriminate|exact C0|congruence]|apply NP]. apply prints_ret. rewrite app_nil_r. destruct b as [[]|].
    + apply After; [right; reflexivity|exact Ha].
    + apply prints_ret. rewrite app_nil_r. apply Fin, C0.
    + apply prints_ret. rewrite app_nil_r. apply Fin, C0.
Qed.
Lemma crypt_says streams policy force d w r w' : fine (w_ui w) -> crypt_streams entry_of lib streams policy force d w r w' -> r <> Panic ->
  exists parts tail w1, length parts = length streams /\ adds (w_ui w) (w_ui w') (concat (map snd parts) ++ tail) /\
    (forall i s part, nth_error streams i = Some s -> nth_error parts i = Some part -> exists w2 w3, round force d 0 (length streams) streams w w1 i s part w2 w3) /\
    process entry_of lib 0 (length streams) streams force d w (Ok (cleanups streams parts, failures parts)) w1 /\
    (same_files w1 w' \/ exists w2, same_files w1 w2 /\ remove_all entry_of (cleanups streams parts) force w2 (Ok tt) w') /\
    closes policy (cleanups streams parts = []) tail /\ (r = Ok tt -> failures parts = []) /\ (r = Err CComposite -> failures parts <> []) /\
    (forall e, r = Err e -> e <> CComposite -> policy = PromptUser /\ cleanups streams parts <> []).
Proof.
  intros F H N. change (io_bind (process entry_of lib 0 (length streams) streams force d) (fun x => let '(cbs, errors) := x in rest policy force cbs errors) w r w') in H.
  destruct H as [(x & w1 & H1 & H)|[(e & H1 & _)|(H1 & ->)]]; [| |congruence]; destruct (process_says _ _ _ _ _ _ _ _ F H1 ltac:(discriminate)) as (parts & E & Len & A & Rd); [|discriminate E].
  injection E as ->. destruct (prints_rest _ _ _ _ _ _ _ (proj1 A) H) as (tail & A' & X). destruct (X N) as (X1 & X2 & X3 & X4).
  exists parts, tail, w1. split; [exact Len|]. split; [eapply adds_trans; eassumption|]. split; [exact Rd|]. split; [exact H1|]. split; [eapply rest_files, H|]. auto.
Qed.
End WithEnvironment.

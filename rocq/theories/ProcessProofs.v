(** Proofs about standard input and output (C86). *)
From Coq.Strings Require Import Byte String.
From Coq Require Import List NArith ZArith Bool PeanoNat Lia.
From Verif Require Import Base BaseFacts Errors Io Text Util CliErrors TextProofs TextProofs2 Getopts CliCreds Crypto HeaderCrypto KeyFiles Ui UiSpec UiProofs SettingsProofs Paths Cli CliProofs PathSpec PathProofs OptSpec OptProofs CmdSpec CmdProofs Fs Commands FsProofs FsProofs4 FsProofs9 FsProofs10 FsProofs14 FlowProofs LoudProofs3 Process ProcessSpec.
Import ListNotations.
Local Open Scope N_scope.

Section Run.
(** Whether standard output and standard input are of interest. *)
Variable out inp : bool.
Definition calm (w w' : world) : Prop := (out = true -> w_stdout w' = w_stdout w) /\ (inp = true -> has_input (w_ui w') = has_input (w_ui w)).
Lemma calm_refl w : calm w w.
Proof. split; reflexivity. Qed.
Lemma calm_trans w1 w2 w3 : calm w1 w2 -> calm w2 w3 -> calm w1 w3.
Proof. intros [A B] [C D]. split; intros E; [rewrite C by exact E; auto|rewrite D by exact E; auto]. Qed.
Definition stays {A} (m : io A) : Prop := forall w r w', m w r w' -> calm w w'.
Lemma stays_ret {A} (a : A) : stays (io_ret a).
Proof. intros w r w' [_ ->]. apply calm_refl. Qed.
Lemma stays_lift {A} (x : outcome cerr A) : stays (io_lift x).
Proof. intros w r w' [_ ->]. apply calm_refl. Qed.
Lemma stays_bind {A B} (m : io A) (f : A -> io B) : stays m -> (forall a, stays (f a)) -> stays (io_bind m f).
Proof.
  intros M F w r w' [(a & w1 & H1 & H2)|[(e & H & _)|(H & _)]]; [|eapply M, H..]. eapply calm_trans; [eapply M, H1|eapply F, H2].
Qed.
Lemma stays_try {A} (m : io A) : stays m -> stays (io_try m).
Proof. intros M w r w' [(x & _ & H & _)|(H & _)]; eapply M, H. Qed.
Definition keeps_in {A} (m : act A) : Prop := forall u, has_input (snd (m u)) = has_input u.
Lemma stays_ui {A} (m : act A) : keeps_in m -> stays (io_ui m).
Proof. intros K w r w' [_ ->]. split; intros _; [reflexivity|]. apply K. Qed.
Lemma in_ignore {A} (m : act A) : keeps_in m -> keeps_in (ignore m).
Proof. intros K u. unfold ignore. specialize (K u). destruct (m u) as [[| |] ?]; exact K. Qed.
Lemma in_println v t : keeps_in (ui_println v t).
Proof. intros u. unfold has_input. rewrite println_input. reflexivity. Qed.
Lemma in_error e : keeps_in (print_error e).
Proof. intros u. unfold print_error, emit. destruct (will_print u _); [|reflexivity]. destruct (u_room u) as [[]|]; reflexivity. Qed.
Lemma in_progress n : forall u, has_input (progress_lines n u) = has_input u.
Proof.
  induction n as [|n IH]; intros u; [reflexivity|]. cbn [progress_lines]. rewrite IH. unfold println_progress, emit.
  destruct (u_progress_enabled u); [|reflexivity]. destruct (will_print u _); [|reflexivity]. destruct (u_room u) as [[]|]; reflexivity.
Qed.

Variable entry_of : names.
Variable lib : crypto_lib.
Variable sha512 : bytes -> bytes.

Lemma stays_open_read p : stays (open_read entry_of p).
Proof. intros w r w' [-> _]. apply calm_refl. Qed.
Lemma stays_metadata p : stays (symlink_metadata entry_of p).
Proof. intros w r w' [-> _]. apply calm_refl. Qed.
Lemma stays_open_input i force : (inp = true -> i <> IStdin) -> stays (open_input entry_of i force).
Proof.
  assert (F : forall p, stays (open_file entry_of p)).
  { intros p. apply stays_bind; [apply stays_open_read|]. intros rd. apply stays_bind; [apply stays_metadata|]. intros md. apply stays_bind; [apply stays_lift|]. intros _. apply stays_ret. }
  intros N. destruct i as [p|p|]; cbn [open_input].
  - apply stays_bind; [apply F|]. intros [rd md]. do 3 (apply stays_bind; [apply stays_lift|]; intros _). apply stays_ret.
  - apply stays_bind; [apply F|]. intros [rd md]. apply stays_ret.
  - intros w r w' H. unfold open_stdin in H. split; intros E; [destruct (u_input (w_ui w)); destruct H as [_ ->]; reflexivity|]. contradiction (N E). reflexivity.
Qed.
Lemma stays_open_output o force : stays (open_output entry_of o force).
Proof.
  destruct o as [p|]; [|apply stays_ret]. intros w r w' H. cbn [open_output] in H. destruct force.
  - destruct H as [(_ & -> & _)|(s & t & i & _ & _ & _ & [(_ & _ & ->)|(n & _ & _ & ->)])]; [apply calm_refl|split; reflexivity|]. destruct (n_regular n); split; reflexivity.
  - destruct H as [(_ & -> & _)|(s & i & _ & _ & _ & _ & ->)]; split; reflexivity.
Qed.
Lemma opened_output o force w wr w' : open_output entry_of o force w (Ok wr) w' -> wr = WriteStdout -> o = OStdout.
Proof.
  destruct o as [p|]; [|reflexivity]. intros H ->. cbn [open_output] in H. destruct force.
  - destruct H as [(E & _)|(s & t & i & _ & _ & E & _)]; discriminate E.
  - destruct H as [(E & _)|(s & i & _ & _ & _ & E & _)]; discriminate E.
Qed.
Lemma written wr d w : (out = true -> wr <> WriteStdout) -> calm w (write_out wr d w).
Proof.
  intros N. split; intros E.
  - destruct wr as [i|]; [apply write_node_stdout|contradiction (N E); reflexivity].
  - unfold write_out. destruct wr as [i|]; [|reflexivity]. destruct (f_nodes (w_fs w) i) as [n|]; [|reflexivity]. destruct (n_regular n); [|reflexivity].
    generalize (seq 1 (length d)). intros l. revert w. assert (K : forall c w, w_ui (fold_left (fun w k => set_fs w (set_content (w_fs w) i (c ++ firstn k d))) l w) = w_ui w).
    { intros c. induction l as [|k l IH]; intros w; [reflexivity|]. cbn [fold_left]. rewrite IH. reflexivity. }
    intros w. rewrite K. reflexivity.
Qed.
Lemma stays_convert d rd wr : (out = true -> wr <> WriteStdout) -> stays (convert entry_of lib d rd wr).
Proof.
  intros N w r w' (er & src & room & fo & r0 & snk & lines & _ & _ & _ & _ & H).
  assert (K : forall o, calm w (let w1 := write_out wr o w in set_ui w1 (progress_lines lines (w_ui w1)))).
  { intros o. cbv zeta. eapply calm_trans; [apply written, N|]. split; intros _; [reflexivity|]. apply in_progress. }
  destruct H as [[_ ->]|(_ & _ & o & _ & ->)]; apply K.
Qed.
Lemma stays_remove p force : stays (remove_cb entry_of p force).
Proof.
  unfold remove_cb. apply stays_bind.
  - apply stays_try. intros w r w' H. unfold remove_file in H. destruct (entry_of p) as [s|]; [|destruct H as [_ ->]; apply calm_refl].
    destruct (f_entries (w_fs w) s) as [[i|l|]|]; [| |destruct H as [_ ->]; apply calm_refl..]; (destruct H as [(_ & _ & ->)|[_ ->]]; split; reflexivity).
  - intros [x|e|]; [apply stays_ret| |apply stays_ret]. destruct force; [apply stays_ret|]. apply stays_ui, in_ignore, in_error.
Qed.
(** The stream reads and writes files. *)
Definition apart (s : io_stream) : Prop := (out = true -> s_output s <> Ok OStdout) /\ (inp = true -> s_input s <> IStdin).
Lemma opened_with {A B} (m : io A) (P : A -> Prop) (f : A -> io B) : stays m -> (forall w a w', m w (Ok a) w' -> P a) -> (forall a, P a -> stays (f a)) -> stays (io_bind m f).
Proof.
  intros M HP F w r w' [(a & w1 & H1 & H2)|[(e & H & _)|(H & _)]]; [|eapply M, H..]. eapply calm_trans; [eapply M, H1|]. eapply F; [eapply HP, H1|exact H2].
Qed.
Lemma stays_attempt k n s force d : apart s -> stays (attempt entry_of lib k n s force d).
Proof.
  intros [No Ni]. unfold attempt.
  apply (opened_with _ (fun o => forall rd wr cb, o = Ok (rd, wr, cb) -> out = true -> wr <> WriteStdout)).
  - apply stays_try, stays_bind; [apply stays_ui, in_ignore, in_println|]. intros _. apply stays_bind; [apply stays_lift|]. intros o.
    apply stays_bind; [apply stays_open_input, Ni|]. intros rd. apply stays_bind; [apply stays_open_output|]. intros wr. apply stays_ret.
  - intros w o w' H rd wr cb -> E ->. destruct H as [(x & Nx & H & Ex)|(_ & H)]; [|discriminate H]. assert (x = Ok (rd, WriteStdout, cb)) as -> by congruence.
    apply bind_ok_inv in H as (a & w1 & _ & H). apply bind_ok_inv in H as (o & w2 & [Eo _] & H). apply bind_ok_inv in H as (rd' & w3 & _ & H). apply bind_ok_inv in H as (wr & w4 & Hw & [H _]).
    assert (wr = WriteStdout) by congruence. apply (No E). rewrite <- Eo. f_equal. eapply opened_output; eassumption.
  - intros [[[rd wr] cb]|e|] P; [|apply stays_ret|apply stays_lift]. apply stays_bind; [apply stays_try, stays_convert, (P _ _ _ eq_refl)|]. intros r. apply stays_ret.
Qed.
Lemma stays_process streams force d : Forall apart streams -> forall k n, stays (process entry_of lib k n streams force d).
Proof.
  induction 1 as [|s streams A F IH]; intros k n; cbn [process]; [apply stays_ret|]. apply stays_bind.
  - unfold step. apply stays_bind; [apply stays_attempt, A|]. intros [[x|e|] cb]; [apply stays_ret| |apply stays_lift].
    apply stays_bind; [apply stays_ui, in_ignore, in_error|]. intros _. apply stays_bind; [destruct cb; [apply stays_remove|apply stays_ret]|]. intros _. apply stays_ret.
  - intros [cbs es]. apply stays_bind; [apply stays_ui, in_println|]. intros _. apply stays_bind; [apply IH|]. intros [cbs' es']. apply stays_ret.
Qed.
Lemma in_question : keeps_in (read_prompt_bool 0 question false).
Proof.
  intros u. pose proof (keeps_prompt_bool 0 question false u) as E. unfold settings in E. congruence.
Qed.
Lemma stays_crypt streams policy force d : Forall apart streams -> stays (crypt_streams entry_of lib streams policy force d).
Proof.
  intros F. unfold crypt_streams. apply stays_bind; [apply stays_process, F|]. intros [cbs es]. apply stays_bind; [|intros _; apply stays_lift].
  destruct cbs as [|p cbs]; [apply stays_ret|]. apply stays_bind.
  - destruct policy; [apply stays_ret..|]. apply stays_bind; [apply stays_ui, in_question|]. intros a. apply stays_ret.
  - intros [|]; [|apply stays_ret]. generalize (p :: cbs). intros l. induction l as [|q l IH]; [apply stays_ret|]. cbn [remove_all]. apply stays_bind; [apply stays_remove|]. intros _. exact IH.
Qed.
Lemma stays_generate streams force : (out = true -> forall k, In k streams -> k_private k <> OStdout) -> stays (generate_key_pair_files entry_of lib sha512 streams force).
Proof.
  intros N. unfold generate_key_pair_files. apply stays_bind; [apply stays_lift|]. intros cs. apply stays_bind; [|intros es; apply stays_lift].
  assert (W : forall o t, (out = true -> o <> OStdout) -> stays (io_bind (open_output entry_of o force) (fun wr => write_text entry_of wr t))).
  { intros o t No. apply (opened_with _ (fun wr => out = true -> wr <> WriteStdout)); [apply stays_open_output| |].
    - intros w wr w' H E Ew. apply (No E). eapply opened_output; eassumption.
    - intros wr Nw w r w' [[_ ->]|(_ & _ & x & _ & ->)]; apply written, Nw. }
  generalize 0%nat at 1 as k, (length streams) as n. revert N. induction streams as [|ks streams IH]; intros N k n; cbn [generate_all]; [apply stays_ret|].
  apply stays_bind; [intros w r w' [-> _]; apply calm_refl|]. intros [pk sk]. apply stays_bind; [apply stays_lift|]. intros [pt st].
  apply stays_bind; [apply stays_ui, in_println|]. intros _. apply stays_bind; [apply stays_ui, in_println|]. intros _. apply stays_bind.
  - apply stays_try. unfold write_pair. apply stays_bind.
    + destruct (k_public ks) as [p|]; [|apply stays_ret]. apply stays_bind; [apply stays_ui, in_println|]. intros _. apply W. discriminate.
    + intros _. apply stays_bind; [apply stays_ui, in_println|]. intros _. apply W. intros E. apply N; [exact E|left; reflexivity].
  - intros res. apply stays_bind.
    + destruct res as [x|e|]; [apply stays_ret| |apply stays_lift]. apply stays_bind; [apply stays_ui, in_error|]. intros _. apply stays_ret.
    + intros es. apply stays_bind; [apply stays_ui, in_println|]. intros _. apply stays_bind; [apply IH; intros E k0 I; apply N; [exact E|right; exact I]|]. intros es'. apply stays_ret.
Qed.
End Run.

Section Main.
Variable entry_of : names.
Variable lib : crypto_lib.
Variable sha512 : bytes -> bytes.
Variable files : text -> option bytes.

Lemma in_bind {A B} (m : act A) (f : A -> act B) : keeps_in m -> (forall a, keeps_in (f a)) -> keeps_in (bind_act m f).
Proof. intros M F u. unfold bind_act. specialize (M u). destruct (m u) as [[a|e|] u1]; [rewrite F; exact M|exact M..]. Qed.
Lemma in_same {A} (m : act A) : (forall u, snd (m u) = u) -> keeps_in m.
Proof. intros H u. rewrite H. reflexivity. Qed.
Lemma in_settings {A} (m : act A) : keeps m -> keeps_in m.
Proof. intros K u. specialize (K u). unfold settings in K. congruence. Qed.
Lemma in_parse args tin tout terr : keeps_in (parse_command_line sha512 files args tin tout terr).
Proof.
  unfold parse_command_line. apply in_bind; [apply in_same; reflexivity|]. intros m. apply in_bind; [apply in_same; intros u; unfold ensure_act, lift; destruct (_ && _); reflexivity|]. intros _.
  apply in_bind; [intros u; reflexivity|]. intros _. destruct (if _ && tout then _ else _) as [d| | |].
  - apply in_bind; [apply in_same; reflexivity|]. intros streams. apply in_bind.
    { intros u. unfold check_and_adjust_ui_verbosity. cbv zeta. destruct (_ && negb _); [reflexivity|]. destruct (_ && negb _); [reflexivity|]. destruct (_ =? _)%Z; reflexivity. }
    intros _. apply in_bind; [destruct (opt_present m OKeepInputs), (opt_present m ODiscardInputs); apply in_same; reflexivity|]. intros policy. apply in_bind; [|intros dir; apply in_same; reflexivity].
    destruct d; (apply in_bind; [|intros c; apply in_same; reflexivity]); apply in_settings; [apply keeps_get_encrypt|apply keeps_get_decrypt].
  - apply in_bind; [apply in_same; reflexivity|]. intros ks. apply in_same. reflexivity.
  - apply in_same. reflexivity.
  - apply in_same. reflexivity.
Qed.
Lemma main_calm out inp args tin tout terr w status w' : main entry_of lib sha512 files args tin tout terr w status w' ->
  (forall c u1, parse_command_line sha512 files args tin tout terr (w_ui w) = (Ok c, u1) -> stays out inp (run_command entry_of lib sha512 c)) -> calm out inp w w'.
Proof.
  intros (r & w1 & H & K) S. assert (Q : calm out inp w w1).
  { pose proof (in_parse args tin tout terr (w_ui w)) as I. destruct H as [(c & w2 & [Ec ->] & H)|[(e & [_ ->] & _)|([_ ->] & _)]]; [|split; intros _; [reflexivity|exact I]..].
    eapply calm_trans; [|eapply (S c (snd (parse_command_line sha512 files args tin tout terr (w_ui w)))); [|exact H]].
    - split; intros _; [reflexivity|exact I].
    - rewrite Ec. destruct (parse_command_line _ _ _ _ _ _ (w_ui w)); reflexivity. }
  eapply calm_trans; [exact Q|]. destruct r as [x|e|]; [destruct K as [_ ->]; apply calm_refl| |destruct K as [_ ->]; apply calm_refl].
  assert (E : w' = w1 \/ w' = set_ui w1 (snd (print_error e (w_ui w1)))) by (destruct e; destruct K as [_ ->]; auto).
  destruct E as [->| ->]; [apply calm_refl|]. split; intros _; [reflexivity|apply in_error].
Qed.

Lemma mode_decided m : decided (m_occs m) (get_mode m).
Proof.
  unfold get_mode. fold (mode_list m). pose proof (max_by_pos_spec (mode_list m) None) as K. destruct (max_by_pos None (mode_list m)) as [[p md]|].
  - right. destruct K as [[K|K] L]; [discriminate K|]. apply mode_list_in in K as (x & I & Ex & Em). exists x. split; [exact I|]. split; [exact Em|].
    intros y Iy Ny. destruct (mode_of (o_opt y)) as [md'|] eqn:Ey; [|contradiction]. rewrite Ex. apply (L (o_pos y, md')). right. apply mode_list_in. exists y. auto.
  - left. split; [reflexivity|]. intros x I. destruct (mode_of (o_opt x)) as [md|] eqn:Em; [|reflexivity]. destruct K as [_ K].
    assert (J : In (o_pos x, md) (mode_list m)) by (apply mode_list_in; exists x; auto). rewrite K in J. destruct J.
Qed.
(** Streams other than those between files. *)
Lemma streams_apart m d force streams : get_input_output_streams m d force = Ok streams ->
  Forall (apart true true) streams \/
  exists i, streams = [mkStream i (Ok OStdout)] /\ (given OStream (m_occs m) \/ names_stdin (m_free m)) /\
    (i = IStdin /\ names_stdin (m_free m) \/ exists p, i = IFileStream p).
Proof.
  intros H. unfold get_input_output_streams in H. destruct (opt_present m OStream || _) eqn:E.
  - right. assert (S : given OStream (m_occs m) \/ names_stdin (m_free m)).
    { apply orb_prop in E as [E|E]; [left; apply present_given, E|]. right. unfold names_stdin. destruct (m_free m) as [|a [|b l]]; [auto| |discriminate E]. right.
      apply text_eqb_eq in E as ->. reflexivity. }
    destruct (m_free m) as [|a [|b l]] eqn:Ef; [| |discriminate H]; injection H as <-; eexists; (split; [reflexivity|]); (split; [exact S|]).
    + left. split; [reflexivity|]. left. reflexivity.
    + destruct (text_eqb a dash) eqn:Ea; [left|right; eauto]. split; [reflexivity|]. right. apply text_eqb_eq in Ea as ->. reflexivity.
  - left. unfold bind at 1, ensure in H. destruct (negb _); [|discriminate H]. injection H as <-. apply Forall_forall. intros s I. apply in_map_iff in I as (a & <- & _).
    split; intros _; [|discriminate]. cbn [s_output]. unfold bind. destruct (match d with Encrypt => _ | Decrypt => _ end); discriminate.
Qed.
Lemma keypair_apart l : forall taken ks, keypair_streams taken l = Ok ks -> ~ In (lit "-") l -> forall k, In k ks -> k_private k <> OStdout.
Proof.
  induction l as [|a l IH]; intros taken ks H N k I; cbn [keypair_streams] in H; [injection H as <-; destruct I|].
  destruct (text_eqb a dash) eqn:E; [apply text_eqb_eq in E as ->; destruct N; left; reflexivity|].
  unfold bind in H. destruct (keypair_streams taken l) as [ks'| |] eqn:Ek; try discriminate H. injection H as <-. destruct I as [<-|I]; [discriminate|].
  eapply IH; [exact Ek| |exact I]. intros J. apply N. right. exact J.
Qed.

Theorem when_written args tin tout terr w status w' : main entry_of lib sha512 files args tin tout terr w status w' -> w_stdout w' <> w_stdout w ->
  exists occs free, means 0 args occs free /\
    (decided occs MHelp \/ decided occs MVersion \/ (args = [] /\ tout = true) \/
     (decided occs MGenerateKeypair /\ In (lit "-") free) \/
     (exists d, decided occs (MCrypt d) /\ (given OStream occs \/ names_stdin free) /\ (tout = true -> d = Decrypt \/ given OForce occs))).
Proof.
  intros H N. assert (Q : forall P : Prop, (forall c u1, parse_command_line sha512 files args tin tout terr (w_ui w) = (Ok c, u1) -> stays true false (run_command entry_of lib sha512 c) \/ P) -> P).
  { intros P K. destruct (parse_command_line sha512 files args tin tout terr (w_ui w)) as [rc u1] eqn:Ep.
    assert (C : forall X : Prop, (forall c u, (rc, u1) = (Ok c, u) -> stays true false (run_command entry_of lib sha512 c)) -> X).
    { intros X S. destruct N. apply (main_calm true false _ _ _ _ _ _ _ H); [|reflexivity]. intros c u E. apply (S c u). congruence. }
    destruct rc as [c|e|]; [|apply C; discriminate..]. destruct (K c u1 eq_refl) as [S|p]; [|exact p]. apply C. intros c' u E. injection E as <- _. exact S. }
  apply Q. intros c u1 Ep. destruct (command_line_inv _ _ _ _ _ _ _ _ _ Ep) as (m & Hm & P & C).
  pose proof (mode_decided m) as D. pose proof (proj1 (proj1 (options_read _ _) Hm)) as M.
  destruct (match args with [] => true | _ => false end && tout) eqn:Eh.
  { right. exists (m_occs m), (m_free m). split; [exact M|]. right. right. left. apply andb_prop in Eh as [Ea Et]. destruct args; [auto|discriminate Ea]. }
  destruct c as [ss po fo dir|ks fo| |]; cbn [run_command].
  - destruct (C _ _ _ _ eq_refl) as (d & ua & ub & Ed & Ef & Hs & Hc & _). destruct (streams_apart _ _ _ _ Hs) as [F|(i & Es & G & _)].
    + left. apply stays_crypt. eapply Forall_impl; [|exact F]. intros s [A _]. split; [exact A|discriminate].
    + right. exists (m_occs m), (m_free m). split; [exact M|]. right. right. right. right. exists d. split.
      * assert (get_mode m = MCrypt d) as <-; [|exact D]. destruct d.
        -- destruct (proj1 Ed eq_refl) as (cr & fa & ->). destruct (get_mode m) as [[|]| | |]; try destruct P. reflexivity.
        -- destruct dir as [cr fa|cs]; [pose proof (proj2 Ed (ex_intro _ cr (ex_intro _ fa eq_refl))) as X; discriminate X|]. destruct (get_mode m) as [[|]| | |]; try destruct P. reflexivity.
      * split; [exact G|]. intros Et. destruct d; [|left; reflexivity]. right. apply present_given. rewrite <- Ef.
        subst ss. exact (proj1 (proj2 (check_inv _ _ _ _ _ _ _ _ _ Hc)) _ eq_refl eq_refl eq_refl Et).
  - destruct (in_dec (list_eq_dec N.eq_dec) (lit "-") (m_free m)) as [I|I].
    + right. exists (m_occs m), (m_free m). split; [exact M|]. right. right. right. left. split; [|exact I]. destruct (get_mode m) as [[|]| | |]; try destruct P. exact D.
    + left. apply stays_generate. intros _ k Ik. unfold parse_command_line in Ep. apply bind_ok in Ep as (m' & u0 & H0 & Ep). apply lift_ok in H0 as [H0 ->]. assert (m' = m) as -> by congruence.
      apply bind_ok in Ep as (x & u0 & H1 & Ep). apply ensure_ok in H1 as (_ & _ & ->). apply bind_ok in Ep as (x' & u2 & H1 & Ep). injection H1 as <- <-. cbv zeta in Ep. rewrite Eh in Ep.
      destruct (get_mode m) as [[|]| | |]; try destruct P. apply bind_ok in Ep as (ks' & u3 & H2 & Ep). apply lift_ok in H2 as [H2 ->]. apply ret_ok in Ep as [E _]. injection E as <- _.
      unfold get_keypair_streams, bind, ensure in H2. destruct (match m_free m with [] => false | _ => true end); [|discriminate H2]. eapply keypair_apart; eassumption.
  - right. exists (m_occs m), (m_free m). split; [exact M|]. left. destruct (get_mode m) as [[|]| | |]; try destruct P. exact D.
  - right. exists (m_occs m), (m_free m). split; [exact M|]. right. left. destruct (get_mode m) as [[|]| | |]; try destruct P. exact D.
Qed.

Theorem when_read args tin tout terr w status w' : main entry_of lib sha512 files args tin tout terr w status w' ->
  u_input (w_ui w) <> None -> u_input (w_ui w') = None ->
  exists occs free d, means 0 args occs free /\ decided occs (MCrypt d) /\ names_stdin free /\ (tin = true -> d = Encrypt \/ given OForce occs).
Proof.
  intros H Ni Nn. assert (N : has_input (w_ui w') <> has_input (w_ui w)) by (unfold has_input; rewrite Nn; destruct (u_input (w_ui w)); [discriminate|contradiction]). clear Ni Nn.
  assert (Q : forall P : Prop, (forall c u1, parse_command_line sha512 files args tin tout terr (w_ui w) = (Ok c, u1) -> stays false true (run_command entry_of lib sha512 c) \/ P) -> P).
  { intros P K. destruct (parse_command_line sha512 files args tin tout terr (w_ui w)) as [rc u1] eqn:Ep.
    assert (C : forall X : Prop, (forall c u, (rc, u1) = (Ok c, u) -> stays false true (run_command entry_of lib sha512 c)) -> X).
    { intros X S. destruct N. apply (main_calm false true _ _ _ _ _ _ _ H); [|reflexivity]. intros c u E. apply (S c u). congruence. }
    destruct rc as [c|e|]; [|apply C; discriminate..]. destruct (K c u1 eq_refl) as [S|p]; [|exact p]. apply C. intros c' u E. injection E as <- _. exact S. }
  apply Q. intros c u1 Ep. destruct (command_line_inv _ _ _ _ _ _ _ _ _ Ep) as (m & Hm & P & C).
  pose proof (mode_decided m) as D. pose proof (proj1 (proj1 (options_read _ _) Hm)) as M.
  assert (T : stays false true (print_text entry_of)) by (intros w1 r w2 (o & -> & _); split; [discriminate|reflexivity]).
  destruct c as [ss po fo dir|ks fo| |]; cbn [run_command]; [|left; apply stays_generate; discriminate|left; exact T..].
  destruct (C _ _ _ _ eq_refl) as (d & ua & ub & Ed & Ef & Hs & Hc & _). destruct (streams_apart _ _ _ _ Hs) as [F|(i & Es & _ & [[-> G]|(p & ->)])].
  - left. apply stays_crypt. eapply Forall_impl; [|exact F]. intros s [_ A]. split; [discriminate|exact A].
  - right. exists (m_occs m), (m_free m), d. split; [exact M|]. split.
    + assert (get_mode m = MCrypt d) as <-; [|exact D]. destruct (match args with [] => true | _ => false end && tout); [destruct dir; destruct P|]. destruct d.
      * destruct (proj1 Ed eq_refl) as (cr & fa & ->). destruct (get_mode m) as [[|]| | |]; try destruct P. reflexivity.
      * destruct dir as [cr fa|cs]; [pose proof (proj2 Ed (ex_intro _ cr (ex_intro _ fa eq_refl))) as X; discriminate X|]. destruct (get_mode m) as [[|]| | |]; try destruct P. reflexivity.
    + split; [exact G|]. intros Et. destruct d; [left; reflexivity|]. right. apply present_given. rewrite <- Ef.
      subst ss. exact (proj1 (check_inv _ _ _ _ _ _ _ _ _ Hc) _ eq_refl eq_refl eq_refl Et).
  - left. apply stays_crypt. subst ss. constructor; [|constructor]. split; [discriminate|]. intros _. discriminate.
Qed.
End Main.

(** A stream from the standard input takes it. *)
Lemma stdin_taken entry_of lib policy force d w w' :
  crypt_streams entry_of lib [mkStream IStdin (Ok OStdout)] policy force d w (Ok tt) w' -> u_input (w_ui w') = None.
Proof.
  intros H. assert (F : forall u, has_input u = false -> u_input u = None) by (intros u E; unfold has_input in E; destruct (u_input u); [discriminate E|reflexivity]). apply F.
  unfold crypt_streams in H. apply bind_ok_inv in H as ([cbs errs] & w1 & Hp & H). apply bind_ok_inv in H as (u & w2 & Hc & [E ->]).
  assert (errs = []) as -> by (destruct errs; [reflexivity|discriminate E]). clear E.
  cbn [process] in Hp. apply bind_ok_inv in Hp as ([c0 e0] & w3 & H1 & Hp). apply bind_ok_inv in Hp as (u1 & w4 & H2 & Hp). apply bind_ok_inv in Hp as ([c1 e1] & w5 & [E ->] & [E' ->]).
  injection E as -> ->. rewrite !app_nil_r in E'. injection E' as -> <-.
  unfold step in H1. apply bind_ok_inv in H1 as ([res cb] & w6 & H1 & H3).
  destruct res as [[]|e|].
  2:{ apply bind_ok_inv in H3 as (? & ? & _ & H3). apply bind_ok_inv in H3 as (? & ? & _ & [E _]). discriminate E. }
  2:{ destruct H3 as [E _]. discriminate E. }
  destruct H3 as [E ->]. cbn [s_input input_cleanup] in E. injection E as ->.
  destruct Hc as [_ ->]. destruct H2 as [_ ->]. cbn [set_ui w_ui]. rewrite in_println.
  unfold attempt in H1. apply bind_ok_inv in H1 as (op & w7 & H1 & H3). destruct H1 as [(x & Nx & H1 & E)|(_ & E)]; [|discriminate E]. injection E as ->.
  destruct x as [[[rd wr] cb']|e|]; [|destruct H3 as [E _]; discriminate E|contradiction Nx; reflexivity].
  apply bind_ok_inv in H3 as (res & w8 & H3 & [E ->]). injection E as <- ->. destruct H3 as [(x & _ & H3 & E)|(_ & E)]; [|discriminate E]. injection E as <-.
  apply bind_ok_inv in H1 as (u2 & w9 & [_ ->] & H1). cbn [s_input s_output] in *. apply bind_ok_inv in H1 as (o & w10 & [[= ->] ->] & H1).
  apply bind_ok_inv in H1 as (rd' & w11 & H1 & H4). apply bind_ok_inv in H4 as (wr' & w12 & [[= ->] ->] & [[= -> -> _] ->]).
  rewrite (proj2 (stays_convert false true entry_of lib d rd' WriteStdout ltac:(discriminate) _ _ _ H3) eq_refl).
  cbn [open_input] in H1. unfold open_stdin in H1. destruct (u_input _); [destruct H1 as [_ ->]; reflexivity|destruct H1 as [E _]; discriminate E].
Qed.

Lemma filter_takes entry_of lib sha512 files args tin tout terr w w' m d : main entry_of lib sha512 files args tin tout terr w 0 w' ->
  parse_options args = Ok m -> names_stdin (m_free m) -> get_mode m = MCrypt d -> args <> [] -> u_input (w_ui w') = None.
Proof.
  intros (r & w1 & H & K) Hm Fr Md Na. destruct r as [[]|e|]; [|destruct e; destruct K as [K _]; discriminate K|destruct K as [K _]; discriminate K]. destruct K as [_ ->].
  apply bind_ok_inv in H as (c & w2 & [Ec ->] & H). destruct (parse_command_line sha512 files args tin tout terr (w_ui w)) as [rc u1] eqn:Ep. cbn [fst snd] in *. subst rc.
  destruct (command_line_inv _ _ _ _ _ _ _ _ _ Ep) as (m' & Hm' & P & C). assert (m' = m) as -> by congruence.
  assert (match args with [] => true | _ => false end = false) as Ea by (destruct args; [contradiction|reflexivity]). rewrite Ea, Md in P. cbn [andb] in P.
  destruct c as [ss po fo dir| | |]; try (destruct d; destruct P). destruct (C _ _ _ _ eq_refl) as (d' & ua & ub & _ & _ & Hs & _). cbn [run_command] in H.
  assert (ss = [mkStream IStdin (Ok OStdout)]) as ->; [|eapply stdin_taken, H].
  unfold get_input_output_streams in Hs. destruct Fr as [Fr|Fr]; rewrite Fr in Hs.
  - rewrite orb_true_r in Hs. congruence.
  - change (text_eqb (lit "-") dash) with true in Hs. rewrite orb_true_r in Hs. congruence.
Qed.

(** ** Arguments and variables *)

Lemma to_texts_ok l : forall ts, to_texts l = Ok ts <-> Forall (Forall scalar) ts /\ map utf8 ts = l.
Proof.
  induction l as [|a l IH]; intros ts; cbn [to_texts].
  - split; [intros [= <-]; split; [constructor|reflexivity]|]. intros [_ E]. destruct ts; [reflexivity|discriminate E].
  - split.
    + intros H. destruct (from_utf8 a) as [t| |] eqn:Ea; try discriminate H. unfold bind in H. destruct (to_texts l) as [ts'| |]; try discriminate H. injection H as <-.
      destruct (proj1 (IH ts') eq_refl) as [A B]. destruct (decode_sound _ _ Ea) as [C D]. split; [constructor; assumption|]. cbn [map]. congruence.
    + intros [F E]. destruct ts as [|t ts]; [discriminate E|]. cbn [map] in E. injection E as Ea El. inversion F as [|? ? Ft Fts]; subst.
      rewrite from_utf8_utf8 by exact Ft. rewrite (proj2 (IH ts)) by auto. reflexivity.
Qed.
Lemma to_texts_err l : (exists a, In a l /\ ~ encodes_text a) <-> to_texts l = Err CUnrecognizedOption.
Proof.
  split.
  - induction l as [|a l IH]; intros (b & I & N); [destruct I|]. cbn [to_texts]. destruct (from_utf8 a) as [t| |] eqn:Ea; [|reflexivity..].
    destruct I as [->|I]; [destruct N; exists t; destruct (decode_sound _ _ Ea); auto|]. unfold bind. rewrite IH by eauto. reflexivity.
  - induction l as [|a l IH]; cbn [to_texts]; [discriminate|]. destruct (from_utf8 a) as [t| |] eqn:Ea.
    + unfold bind. intros H. destruct (to_texts l) as [ts|e|] eqn:El; try discriminate H. destruct IH as (b & I & N); [congruence|]. exists b. split; [right; exact I|exact N].
    + intros _. exists a. split; [left; reflexivity|]. intros (t & S & ->). rewrite from_utf8_utf8 in Ea by exact S. discriminate Ea.
    + intros _. exists a. split; [left; reflexivity|]. intros (t & S & ->). rewrite from_utf8_utf8 in Ea by exact S. discriminate Ea.
Qed.
Lemma var_text p name : var_is_ok p (lit name) = true <-> set_to_text p name.
Proof.
  unfold var_is_ok, set_to_text. split.
  - destruct (p_variable p (lit name)) as [v|]; [|discriminate]. destruct (from_utf8 v) as [t| |] eqn:E; try discriminate. intros _. exists v. split; [reflexivity|]. exists t. destruct (decode_sound _ _ E). auto.
  - intros (v & -> & t & S & ->). rewrite from_utf8_utf8 by exact S. reflexivity.
Qed.
Lemma tty_eq (a b c d : bool) : (a = true \/ b = true <-> c = true \/ d = true) -> a || b = c || d.
Proof. intros [A B]. destruct a, b, c, d; cbn in *; try reflexivity; intuition discriminate. Qed.

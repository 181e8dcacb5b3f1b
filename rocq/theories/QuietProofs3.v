(** Proofs about how much appears on the terminal (C75): the program. *)
From Coq.Strings Require Import Byte String.
From Coq Require Import List NArith ZArith Bool Permutation Lia.
From Verif Require Import Base BaseFacts Text Util CliErrors Getopts Crypto HeaderCrypto KeyFiles Io FileCrypto Ui UiSpec UiProofs2 CliCreds CliSpec CliProofs CliProofs3 Paths Cli Fs Commands PathSpec PathProofs OptSpec OptProofs CmdProofs CmdSpec ShowSpec ShowProofs ShowProofs2 QuietSpec QuietProofs QuietProofs2.
Import ListNotations.
Local Open Scope N_scope.

Section WithEnvironment.
Variable entry_of : names.
Variable lib : crypto_lib.
Variable sha512 : bytes -> bytes.
Variable files : text -> option bytes.

Lemma steady_print_error e u : steady u (snd (print_error e u)).
Proof. apply (mild_error e u I). Qed.
(** The verbosity that the command line gives, unless it is adjusted. *)
Lemma main_steady args tin tout terr w status w' occs free : means 0 args occs free -> (forall o, only_once o -> (times o occs <= 1)%nat) -> (-2 <= quietness occs <= 2)%Z ->
  main entry_of lib sha512 files args tin tout terr w status w' ->
  (steady (set_verbosity (w_ui w) (- quietness occs)%Z) (w_ui w') /\
    (given OGenKeypair occs \/ exists tr, u_trace (w_ui w') = u_trace (w_ui w) ++ tr /\ Forall error_event tr)) \/
  exists streams d force v pe, get_input_output_streams (mkMatches occs free) d force = Ok streams /\
    steady (set_progress_enabled (set_verbosity (w_ui w) v) pe) (w_ui w') /\
    (v = if (quietness occs =? 0)%Z then if increase streams d tin tout terr then 1 else -1 else - quietness occs)%Z.
Proof.
  intros M O Q (r & w1 & H & Hm).
  assert (P : parse_options args = Ok (mkMatches occs free)) by (apply options_read; auto).
  assert (E1 : steady (w_ui w1) (w_ui w')).
  { destruct r as [a|e|]; [destruct Hm as [_ ->]; apply steady_refl| |destruct Hm as [_ ->]; apply steady_refl].
    destruct e; destruct Hm as [_ ->]; try apply steady_print_error; apply steady_refl. }
  assert (E2 : exists tr, u_trace (w_ui w') = u_trace (w_ui w1) ++ tr /\ Forall error_event tr).
  { assert (N0 : exists tr, u_trace (w_ui w1) = u_trace (w_ui w1) ++ tr /\ Forall error_event tr) by (exists []; rewrite app_nil_r; auto).
    assert (Y : forall e, exists tr, u_trace (w_ui (set_ui w1 (snd (print_error e (w_ui w1))))) = u_trace (w_ui w1) ++ tr /\ Forall error_event tr).
    { intros e. cbn [w_ui set_ui]. unfold print_error, emit. destruct (will_print _ _); [|exact N0]. destruct (u_room (w_ui w1)) as [[|n]|]; [exact N0| |];
        (exists [Printed (MError e)]; split; [reflexivity|]; constructor; [exists e; reflexivity|constructor]). }
    destruct r as [a|e|]; [destruct Hm as [_ ->]; exact N0| |destruct Hm as [_ ->]; exact N0].
    destruct e; destruct Hm as [_ ->]; try apply Y; exact N0. }
  assert (T : forall c w0, run_command entry_of lib sha512 c w0 r w1 -> c = Help \/ c = Version -> w_ui w1 = w_ui w0).
  { intros c w0 Hc [->| ->]; cbn [run_command] in Hc; destruct Hc as (out & -> & _); apply write_ui. }
  assert (X : exists r0 u0, parse_command_line sha512 files args tin tout terr (w_ui w) = (r0, u0) /\
    ((exists c, r0 = Ok c /\ run_command entry_of lib sha512 c (set_ui w u0) r w1) \/ ((forall c, r0 <> Ok c) /\ w1 = set_ui w u0))).
  { destruct (parse_command_line sha512 files args tin tout terr (w_ui w)) as [r0 u0] eqn:E. exists r0, u0. split; [reflexivity|].
    destruct H as [(c & w2 & [Hr Hw] & Hc)|[(e & [Hr Hw] & ->)|[[Hr Hw] ->]]]; rewrite E in Hr, Hw; cbn [fst snd] in Hr, Hw; subst r0.
    - left. exists c. split; [reflexivity|]. rewrite <- Hw. exact Hc.
    - right. split; [discriminate|exact Hw].
    - right. split; [discriminate|exact Hw]. }
  destruct X as (r0 & u0 & L & X).
  assert (E3 : steady u0 (w_ui w1)).
  { destruct X as [(c & _ & Hc)|[_ ->]]; [|apply steady_refl]. exact (gentle_command _ _ _ _ _ _ _ Hc). }
  destruct (line_cases _ _ _ _ _ _ _ _ _ _ _ P Q L) as [(Eu & K)|(streams & d & force & v & pe & Hs & St & Hv)].
  - left. split; [rewrite <- Eu; eapply steady_trans; eassumption|].
    assert (Z : w_ui w1 = u0 -> given OGenKeypair occs \/ exists tr, u_trace (w_ui w') = u_trace (w_ui w) ++ tr /\ Forall error_event tr).
    { intros Eq. right. rewrite Eq in E2. subst u0. exact E2. }
    destruct X as [(c & -> & Hc)|[N0 ->]]; [|apply Z; reflexivity].
    destruct K as [(e & K)|[(G & _)|K]]; [discriminate K|left; exact G|]. apply Z. apply (T c (set_ui w u0) Hc). destruct K as [[= ->]|[= ->]]; auto.
  - right. exists streams, d, force, v, pe. split; [exact Hs|]. split; [|exact Hv]. eapply steady_trans; [exact St|]. eapply steady_trans; eassumption.
Qed.

Lemma allowed_silent u tr : (u_verbosity u < -1)%Z -> Forall (allowed u) tr -> tr = [].
Proof. intros V F. destruct F as [|e tr H _]; [reflexivity|]. exfalso. destruct H as [H|[[H _]|[(_ & _ & H) _]]]; [unfold chatty in H|..]; lia. Qed.
Lemma allowed_quiet u tr : u_verbosity u = (-1)%Z -> Forall (allowed u) tr -> quiet (u_input_is_tty u && u_output_is_tty u) tr.
Proof.
  intros V F. eapply Forall_impl; [|exact F]. intros e [H|[[_ H]|[(A & B & _) H]]]; [unfold chatty in H; lia|left; exact H|]. right. rewrite A, B. auto.
Qed.

Theorem main_silent args tin tout terr w status w' occs free : means 0 args occs free -> (forall o, only_once o -> (times o occs <= 1)%nat) -> quietness occs = 2%Z ->
  main entry_of lib sha512 files args tin tout terr w status w' -> u_trace (w_ui w') = u_trace (w_ui w).
Proof.
  intros M O Q H.
  assert (X : exists u, u_trace u = u_trace (w_ui w) /\ u_verbosity u = (-2)%Z /\ steady u (w_ui w')).
  { destruct (main_steady _ _ _ _ _ _ _ _ _ M O ltac:(lia) H) as [[St _]|(streams & d & force & v & pe & _ & St & Hv)].
    - eexists. split; [|split; [|exact St]]; [reflexivity|cbn; lia].
    - rewrite Q in Hv. cbn in Hv. eexists. split; [|split; [|exact St]]; [reflexivity|exact Hv]. }
  destruct X as (u & Et & V & _ & tr & E & F). apply allowed_silent in F; [|lia]. subst tr. rewrite app_nil_r in E. congruence.
Qed.
Theorem main_quiet args tin tout terr w status w' occs free : means 0 args occs free -> (forall o, only_once o -> (times o occs <= 1)%nat) -> quietness occs = 1%Z ->
  main entry_of lib sha512 files args tin tout terr w status w' ->
  exists tr, u_trace (w_ui w') = u_trace (w_ui w) ++ tr /\ quiet (u_input_is_tty (w_ui w) && u_output_is_tty (w_ui w)) tr.
Proof.
  intros M O Q H. destruct (main_steady _ _ _ _ _ _ _ _ _ M O ltac:(lia) H) as [[(_ & tr & E & F) _]|(streams & d & force & v & pe & _ & (_ & tr & E & F) & Hv)].
  - exists tr. split; [exact E|]. apply allowed_quiet in F; [exact F|]. cbn. lia.
  - rewrite Q in Hv. cbn in Hv. exists tr. split; [exact E|]. apply allowed_quiet in F; [exact F|]. exact Hv.
Qed.
Lemma increase_files occs free d force streams tin tout terr : get_input_output_streams (mkMatches occs free) d force = Ok streams ->
  terr = false \/ (~ to_stdout occs free /\ (tin = false \/ tout = false)) -> increase streams d tin tout terr = false.
Proof.
  intros Hs [->|[N0 C]]; [reflexivity|]. apply sources_ok in Hs as [[Y _]|(_ & _ & F)]; [contradiction|]. unfold increase.
  assert (A : match streams with [s] => is_stdin s | _ => false end = false).
  { destruct F as [|a s l l' [A _] [|]]; try reflexivity. unfold is_stdin. rewrite A. reflexivity. }
  assert (B : match streams with [s] => is_stdout s | _ => false end = false).
  { destruct F as [|a s l l' [_ B] [|]]; try reflexivity. unfold is_stdout. destruct (s_output s) as [q| |]; try reflexivity. destruct (B q eq_refl) as [p ->]. reflexivity. }
  rewrite A, B. cbn [andb]. rewrite !orb_false_r. destruct terr, tin, tout; try reflexivity; destruct C; discriminate.
Qed.
Theorem main_in_scripts args tin tout terr w status w' occs free : means 0 args occs free -> (forall o, only_once o -> (times o occs <= 1)%nat) -> quietness occs = 0%Z ->
  ~ given OGenKeypair occs -> terr = false \/ (~ to_stdout occs free /\ (tin = false \/ tout = false)) ->
  main entry_of lib sha512 files args tin tout terr w status w' ->
  exists tr, u_trace (w_ui w') = u_trace (w_ui w) ++ tr /\ quiet (u_input_is_tty (w_ui w) && u_output_is_tty (w_ui w)) tr.
Proof.
  intros M O Q G C H. destruct (main_steady _ _ _ _ _ _ _ _ _ M O ltac:(lia) H) as [(_ & [K|(tr & E & F)])|(streams & d & force & v & pe & Hs & (_ & tr & E & F) & Hv)].
  - contradiction.
  - exists tr. split; [exact E|]. eapply Forall_impl; [|exact F]. auto.
  - rewrite Q, (increase_files _ _ _ _ _ _ _ _ Hs C) in Hv. cbn in Hv. exists tr. split; [exact E|]. apply allowed_quiet in F; [exact F|]. exact Hv.
Qed.

(** ** Failures are explained *)
Definition loud (u : ui) : Prop := u_room u = None /\ (-1 <= u_verbosity u)%Z.
Definition complains (u u' : ui) : Prop := exists tr, u_trace u' = u_trace u ++ tr /\ exists e, In (Printed (MError e)) tr.
Lemma alike_loud u v : alike u v -> loud u -> loud v.
Proof. intros (_ & _ & C & D) [A B]. split; [auto|]. rewrite C. exact B. Qed.
Lemma complains_left u v w : complains u v -> steady v w -> complains u w.
Proof. intros (t1 & E1 & e & I1) (_ & t2 & E2 & _). exists (t1 ++ t2). split; [rewrite E2, E1; apply eq_sym, app_assoc|]. exists e. apply in_or_app. auto. Qed.
Lemma complains_right u v w : steady u v -> complains v w -> complains u w.
Proof. intros (_ & t1 & E1 & _) (t2 & E2 & e & I2). exists (t1 ++ t2). split; [rewrite E2, E1; apply eq_sym, app_assoc|]. exists e. apply in_or_app. auto. Qed.
Lemma loud_error e u : loud u -> print_error e u = (Ok tt, log u (Printed (MError e))).
Proof. intros [R V]. unfold print_error, will_print, ERROR_VERBOSITY, emit. rewrite R. destruct (Z.leb_spec (-1) (u_verbosity u)); [reflexivity|lia]. Qed.
Lemma complains_error e u : complains u (log u (Printed (MError e))).
Proof. exists [Printed (MError e)]. split; [reflexivity|]. exists e. left. reflexivity. Qed.
Lemma loud_println t u : loud u -> exists u', ui_println 0 t u = (Ok tt, u').
Proof. intros [R _]. unfold ui_println, emit. destruct (will_print u 0); [rewrite R|]; eauto. Qed.

(** Where the list of errors is not empty, there was a message. *)
Definition owns_up {A} (bad : A -> Prop) (m : io A) : Prop := forall w r w', loud (w_ui w) -> m w r w' ->
  (forall a, r = Ok a -> bad a -> complains (w_ui w) (w_ui w')) /\ (r = Err CComposite -> complains (w_ui w) (w_ui w')).
Lemma owns_bind {A B} (bad : B -> Prop) (badA : A -> Prop) (m : io A) (f : A -> io B) : gentle m -> (forall a, gentle (f a)) -> owns_up badA m ->
  (forall a, owns_up (fun b => bad b /\ ~ badA a) (f a)) -> (forall a, badA a \/ ~ badA a) -> owns_up bad (io_bind m f).
Proof.
  intros Gm Gf Hm Hf D w r w' L [(a & w1 & E & H)|[(e & E & ->)|[E ->]]].
  - pose proof (Gm _ _ _ E) as S1. destruct (Hf a w1 r w' (alike_loud _ _ (proj1 S1) L) H) as [X Y]. split.
    + intros b Eb Hb. destruct (D a) as [Ba|Na].
      * eapply complains_left; [exact (proj1 (Hm _ _ _ L E) a eq_refl Ba)|]. exact (Gf _ _ _ _ H).
      * eapply complains_right; [exact S1|]. eapply X; [exact Eb|]. auto.
    + intros Er. eapply complains_right; [exact S1|]. apply Y, Er.
  - split; [discriminate|]. intros [= ->]. apply (proj2 (Hm _ _ _ L E)). reflexivity.
  - split; discriminate.
Qed.
Lemma owns_no {A} (bad : A -> Prop) (m : io A) : (forall w r w', loud (w_ui w) -> m w r w' -> (forall a, r = Ok a -> ~ bad a) /\ r <> Err CComposite) -> owns_up bad m.
Proof. intros H w r w' L E. destruct (H _ _ _ L E) as [X Y]. split; [intros a Ea Ba; destruct (X a Ea Ba)|intros Er; contradiction]. Qed.
Lemma owns_ret {A} (bad : A -> Prop) a : ~ bad a -> owns_up bad (io_ret a).
Proof. intros H. apply owns_no. intros w r w' _ [-> _]. split; [intros b [= <-]; exact H|discriminate]. Qed.
Definition never {A} (a : A) : Prop := False.
Lemma never_dec {A} (a : A) : never a \/ ~ never a.
Proof. right. intros []. Qed.
Lemma owns_println t : owns_up never (io_ui (ui_println 0 t)).
Proof. apply owns_no. intros w r w' L [-> _]. destruct (loud_println t _ L) as [u' ->]. split; [intros a _ []|discriminate]. Qed.
Lemma owns_try {A} (m : io A) : owns_up never (io_try m).
Proof. apply owns_no. intros w r w' _ [(x & _ & _ & ->)|[_ ->]]; (split; [intros a _ []|discriminate]). Qed.

Definition errors_in {A} (x : A * list cerr) : Prop := snd x <> [].
Lemma errors_dec {A} (x : A * list cerr) : errors_in x \/ ~ errors_in x.
Proof. destruct x as [a [|e l]]; [right; intros H; apply H; reflexivity|left; discriminate]. Qed.
Lemma owns_weaken {A} (bad bad' : A -> Prop) (m : io A) : (forall a, bad' a -> bad a) -> owns_up bad m -> owns_up bad' m.
Proof. intros W H w r w' L E. destruct (H _ _ _ L E) as [X Y]. split; [intros a Ea Ba; eapply X; eauto|exact Y]. Qed.
Lemma owns_never {A} (m : io A) : (forall w r w', m w r w' -> r <> Err CComposite) -> owns_up never m.
Proof. intros H. apply owns_no. intros w r w' _ E. split; [intros a _ []|eapply H, E]. Qed.
Lemma remove_cb_single p force w r w' : remove_cb entry_of p force w r w' -> r <> Err CComposite.
Proof.
  unfold remove_cb. intros [(x & w1 & _ & H)|[(e & T & _)|[_ ->]]]; [| |discriminate].
  - destruct x as [a|e|]; [destruct H as [-> _]; discriminate| |destruct H as [-> _]; discriminate]. destruct force; [destruct H as [-> _]; discriminate|].
    destruct H as [-> _]. unfold ignore. destruct (print_error e (w_ui w1)) as [[]]; discriminate.
  - destruct T as [(x & _ & _ & X)|[_ X]]; discriminate X.
Qed.
Lemma owns_attempt {k n} s force d : owns_up never (attempt entry_of lib k n s force d).
Proof.
  apply (owns_bind _ never); [apply gentle_try| |apply owns_try| |apply never_dec].
  - apply gentle_bind; [apply gentle_ui, mild_ignore, mild_println|]. intros ?. apply gentle_bind; [apply gentle_lift|]. intros o.
    apply gentle_bind; [apply gentle_open_input|]. intros rd. apply gentle_bind; [apply gentle_open_output|]. intros wr. apply gentle_ret.
  - intros [[[rd wr] cb]|e|]; [|apply gentle_ret|apply gentle_lift]. apply gentle_bind; [apply gentle_try, gentle_convert|]. intros r. apply gentle_ret.
  - intros [[[rd wr] cb]|e|].
    + apply (owns_bind _ never); [apply gentle_try, gentle_convert|intros; apply gentle_ret|apply owns_try|intros x; apply owns_ret; intros [[[] _] _]|apply never_dec].
    + apply owns_ret. intros [[] _].
    + apply owns_no. intros w r w' _ [-> _]. split; discriminate.
Qed.
Lemma owns_step {k n} s force d : owns_up errors_in (step entry_of lib k n s force d).
Proof.
  apply (owns_bind _ never); [apply gentle_attempt| |apply owns_attempt| |apply never_dec].
  - intros [[a|e|] cb]; [apply gentle_ret| |apply gentle_lift].
    apply gentle_bind; [apply gentle_ui, mild_ignore, mild_error|]. intros ?. apply gentle_bind; [destruct cb; [apply gentle_remove_cb|apply gentle_ret]|]. intros ?. apply gentle_ret.
  - intros [[a|e|] cb].
    + apply owns_ret. intros [H _]. apply H. reflexivity.
    + assert (G : gentle (let! _ := match cb with Some p => remove_cb entry_of p force | None => io_ret tt end in io_ret ([] : list path, [e]))).
      { apply gentle_bind; [destruct cb; [apply gentle_remove_cb|apply gentle_ret]|intros; apply gentle_ret]. }
      assert (T : owns_up (fun _ : unit => True) (io_ui (ignore (print_error e)))).
      { intros w r w' L [-> ->]. unfold ignore. rewrite (loud_error e _ L). cbn [fst snd w_ui set_ui]. split; [intros a _ _; apply complains_error|discriminate]. }
      apply (owns_bind _ (fun _ : unit => True)); [apply gentle_ui, mild_ignore, mild_error|intros; exact G|exact T| |auto].
      intros ?. apply (owns_bind _ never); [destruct cb; [apply gentle_remove_cb|apply gentle_ret]|intros; apply gentle_ret| |intros ?; apply owns_ret; intros [[_ H] _]; apply H; exact I|apply never_dec].
      destruct cb; [apply owns_never; intros; eapply remove_cb_single; eassumption|apply owns_ret; intros []].
    + apply owns_no. intros w r w' _ [-> _]. split; discriminate.
Qed.
Lemma owns_process {k n} streams force d : owns_up errors_in (process entry_of lib k n streams force d).
Proof.
  revert k. induction streams as [|s streams IH]; intros k; cbn [process]; [apply owns_ret; intros H; apply H; reflexivity|].
  assert (G : forall c (e : list cerr), gentle (let! (cbs', errors') := process entry_of lib (S k) n streams force d in io_ret (c ++ cbs', e ++ errors'))).
  { intros c e. apply gentle_bind; [apply gentle_process|]. intros [c' e']. apply gentle_ret. }
  apply (owns_bind _ errors_in); [apply gentle_step| |apply owns_step| |apply errors_dec].
  - intros [c e]. apply gentle_bind; [apply gentle_ui, mild_println|]. intros ?. apply G.
  - intros [c e]. apply (owns_bind _ never); [apply gentle_ui, mild_println|intros; apply G|apply owns_println| |apply never_dec].
    intros ?. apply (owns_bind _ errors_in); [apply gentle_process|intros [c' e']; apply gentle_ret|apply IH| |apply errors_dec].
    intros [c' e']. apply owns_ret. intros [[[H N1] _] N2]. unfold errors_in in *. cbn [snd] in *. destruct e as [|x e]; [|apply N1; discriminate]. apply N2, H.
Qed.
Lemma remove_all_single cbs force : forall w r w', remove_all entry_of cbs force w r w' -> r <> Err CComposite.
Proof.
  induction cbs as [|p cbs IH]; cbn [remove_all]; intros w r w' H; [destruct H as [-> _]; discriminate|].
  destruct H as [([] & w1 & _ & H)|[(e & H & ->)|[_ ->]]]; [eapply IH, H|eapply remove_cb_single, H|discriminate].
Qed.
Lemma single_question p b : plain (read_prompt_bool 0 p b).
Proof.
  intros u. unfold read_prompt_bool. destruct (_ || _); [discriminate|]. cbv zeta. generalize (S (input_size u)) as fuel. intros fuel. revert u.
  match goal with |- context [prompt_loop _ ?q b] => generalize q end. intros q.
  apply plain_bind; [|intros; apply plain_ret]. induction fuel as [|fuel IH]; [apply plain_lift; discriminate|]. cbn [prompt_loop].
  apply plain_bind; [apply plain_prompt|]. intros r. cbv zeta. repeat (destruct (_ || _) || destruct (text_eqb _ _)); try apply plain_ret.
  apply plain_bind; [apply plain_interactive|]. intros ?. exact IH.
Qed.
Lemma crypt_complains streams policy force d w w' : loud (w_ui w) -> crypt_streams entry_of lib streams policy force d w (Err CComposite) w' -> complains (w_ui w) (w_ui w').
Proof.
  intros L [([cbs errors] & w1 & E & H)|[(e & E & [= <-])|[_ X]]]; [|apply (proj2 (owns_process _ _ _ _ _ _ L E)); reflexivity|discriminate X].
  destruct H as [(a & w2 & G & [X ->])|[(e & G & [= <-])|[_ X]]]; [| |discriminate X].
  - destruct errors as [|x errors]; [discriminate X|]. eapply complains_left.
    + eapply (proj1 (owns_process _ _ _ _ _ _ L E)); [reflexivity|discriminate].
    + revert G. match goal with |- ?m w1 _ _ -> _ => assert (GG : gentle m) end; [|intros G; exact (GG _ _ _ G)].
      destruct cbs as [|p cbs]; [apply gentle_ret|]. apply gentle_bind.
      * destruct policy; try apply gentle_ret. apply gentle_bind; [apply gentle_ui, mild_question|]. intros b. apply gentle_ret.
      * intros b. destruct b; [apply gentle_remove_all|apply gentle_ret].
  - exfalso. destruct cbs as [|p cbs]; [destruct G as [X _]; discriminate X|]. destruct G as [(b & w2 & _ & G)|[(e & G & [= <-])|[_ X]]]; [| |discriminate X].
    + destruct b; [eapply remove_all_single; [exact G|reflexivity]|destruct G as [X _]; discriminate X].
    + destruct policy; try (destruct G as [X _]; discriminate X). destruct G as [(b & w2 & _ & [X _])|[(e & [G _] & [= <-])|[_ X]]]; try discriminate X.
      symmetry in G. exact (single_question _ _ _ G).
Qed.
Lemma owns_generate_all {k n} cs streams force : owns_up (fun es => es <> []) (generate_all entry_of sha512 k n cs streams force).
Proof.
  assert (D : forall es : list cerr, es <> [] \/ ~ es <> []) by (intros [|e l]; [right; intros H; apply H; reflexivity|left; discriminate]).
  revert k. induction streams as [|ks streams IH]; intros k; cbn [generate_all]; [apply owns_ret; intros H; apply H; reflexivity|].
  assert (G : forall es : list cerr, gentle (let! errors' := generate_all entry_of sha512 (S k) n cs streams force in io_ret (es ++ errors'))).
  { intros es. apply gentle_bind; [apply gentle_generate_all|]. intros. apply gentle_ret. }
  assert (GR : forall res : outcome cerr unit, gentle (match res with Ok _ => io_ret [] | Err e => let! _ := io_ui (print_error e) in io_ret [e] | Panic => io_lift Panic end)).
  { intros [a|e|]; [apply gentle_ret| |apply gentle_lift]. apply gentle_bind; [apply gentle_ui, mild_error|]. intros ?. apply gentle_ret. }
  assert (G2 : forall res : outcome cerr unit, gentle (let! errors := match res with Ok _ => io_ret [] | Err e => let! _ := io_ui (print_error e) in io_ret [e] | Panic => io_lift Panic end in
    let! _ := io_ui (ui_println 0 []) in let! errors' := generate_all entry_of sha512 (S k) n cs streams force in io_ret (errors ++ errors'))).
  { intros res. apply gentle_bind; [apply GR|]. intros es. apply gentle_bind; [apply gentle_ui, mild_println|]. intros ?. apply G. }
  assert (G3 : forall a b, gentle (let! res := io_try (write_pair entry_of ks force a b) in let! errors := match res with Ok _ => io_ret [] | Err e => let! _ := io_ui (print_error e) in io_ret [e] | Panic => io_lift Panic end in
    let! _ := io_ui (ui_println 0 []) in let! errors' := generate_all entry_of sha512 (S k) n cs streams force in io_ret (errors ++ errors'))).
  { intros a b. apply gentle_bind; [apply gentle_try, gentle_pair|exact G2]. }
  apply (owns_bind _ never); [apply gentle_still; intros w r w' (-> & _); reflexivity| |apply owns_never; intros w r w' (_ & seed & ->); discriminate| |apply never_dec].
  { intros [pk sk]. apply gentle_bind; [apply gentle_lift|]. intros [a b]. apply gentle_bind; [apply gentle_ui, mild_println|]. intros ?. apply gentle_bind; [apply gentle_ui, mild_println|]. intros ?. apply G3. }
  intros [pk sk]. apply (owns_bind _ never); [apply gentle_lift| |apply owns_never; intros w r w' [-> _]; unfold key_pair_texts, bind, assert; destruct (bytes_eqb _ _); discriminate| |apply never_dec].
  { intros [a b]. apply gentle_bind; [apply gentle_ui, mild_println|]. intros ?. apply gentle_bind; [apply gentle_ui, mild_println|]. intros ?. apply G3. }
  intros [a b]. apply (owns_bind _ never); [apply gentle_ui, mild_println| |apply owns_println| |apply never_dec].
  { intros ?. apply gentle_bind; [apply gentle_ui, mild_println|]. intros ?. apply G3. }
  intros ?. apply (owns_bind _ never); [apply gentle_ui, mild_println|intros ?; apply G3|apply owns_println| |apply never_dec].
  intros ?. apply (owns_bind _ never); [apply gentle_try, gentle_pair|exact G2|apply owns_try| |apply never_dec].
  intros res. apply (owns_bind _ (fun es => es <> [])); [apply GR| | | |exact D].
  - intros es. apply gentle_bind; [apply gentle_ui, mild_println|]. intros ?. apply G.
  - destruct res as [x|e|]; [apply owns_ret; intros H; apply H; reflexivity| |apply owns_no; intros w r w' _ [-> _]; split; discriminate].
    apply (owns_bind _ (fun _ : unit => True)); [apply gentle_ui, mild_error|intros; apply gentle_ret| |intros ?; apply owns_ret; intros [_ H]; apply H; exact I|auto].
    intros w r w' L [-> ->]. rewrite (loud_error e _ L). cbn [fst snd w_ui set_ui]. split; [intros x _ _; apply complains_error|discriminate].
  - intros es. apply (owns_bind _ never); [apply gentle_ui, mild_println|intros; apply G|apply owns_println| |apply never_dec].
    intros ?. apply (owns_bind _ (fun es => es <> [])); [apply gentle_generate_all|intros; apply gentle_ret|apply IH| |exact D].
    intros es'. apply owns_ret. intros H. destruct H as [[[H N1] _] N2]. destruct es as [|x es]; [|apply N1; discriminate].
    do 5 (destruct H as [H _]). exact (N2 H).
Qed.
Lemma generate_complains streams force w w' : loud (w_ui w) -> generate_key_pair_files entry_of lib sha512 streams force w (Err CComposite) w' -> complains (w_ui w) (w_ui w').
Proof.
  intros L [(cs & w1 & [_ ->] & H)|[(e & [E _] & [= <-])|[_ X]]]; [|destruct (lib _); discriminate E|discriminate X].
  destruct H as [(es & w2 & E & [X ->])|[(e & E & [= <-])|[_ X]]]; [|apply (proj2 (owns_generate_all _ _ _ _ _ _ L E)); reflexivity|discriminate X].
  apply (proj1 (owns_generate_all _ _ _ _ _ _ L E) es eq_refl). intros ->. discriminate X.
Qed.
Lemma command_complains c w w' : loud (w_ui w) -> run_command entry_of lib sha512 c w (Err CComposite) w' -> complains (w_ui w) (w_ui w').
Proof.
  intros L H. destruct c; cbn [run_command] in H; [eapply crypt_complains; eassumption|eapply generate_complains; eassumption|..];
    destruct H as (out & _ & [X|[_ X]]); discriminate X.
Qed.
Theorem main_complains args tin tout terr w w' : u_verbosity (w_ui w) = 0%Z -> u_room (w_ui w) = None ->
  (forall occs free, means 0 args occs free -> quietness occs <> 2%Z) ->
  main entry_of lib sha512 files args tin tout terr w 1 w' -> complains (w_ui w) (w_ui w').
Proof.
  intros V R NQ (r & w1 & H & Hm).
  destruct r as [a|e|]; [destruct Hm as [X _]; discriminate X| |destruct Hm as [X _]; discriminate X].
  (* the messages of the program can be seen *)
  assert (LL : forall u, u_room u = None -> (-1 <= u_verbosity u)%Z -> forall e, complains u (snd (print_error e u))).
  { intros u Ru Vu e'. rewrite loud_error by (split; assumption). apply complains_error. }
  assert (X : exists r0 u0, parse_command_line sha512 files args tin tout terr (w_ui w) = (r0, u0) /\
    ((exists c, r0 = Ok c /\ run_command entry_of lib sha512 c (set_ui w u0) (Err e) w1) \/ (r0 = Err e /\ w1 = set_ui w u0))).
  { destruct (parse_command_line sha512 files args tin tout terr (w_ui w)) as [r0 u0] eqn:E. exists r0, u0. split; [reflexivity|].
    destruct H as [(c & w2 & [Hr Hw] & Hc)|[(e' & [Hr Hw] & [= <-])|[_ X]]]; [| |discriminate X]; rewrite E in Hr, Hw; cbn [fst snd] in Hr, Hw; subst r0.
    - left. exists c. split; [reflexivity|]. rewrite <- Hw. exact Hc.
    - right. split; [reflexivity|exact Hw]. }
  destruct X as (r0 & u0 & L & X).
  assert (Z0 : (exists tr, u_trace u0 = u_trace (w_ui w) ++ tr) /\ loud u0).
  { destruct (parse_options args) as [[occs free]|e0|] eqn:P.
    - pose proof (proj1 (proj1 (options_read _ _) P)) as M. cbn [m_occs m_free] in M. specialize (NQ _ _ M).
      destruct (Z_le_dec (-2) (quietness occs)) as [Q1|Q1]; [destruct (Z_le_dec (quietness occs) 2) as [Q2|Q2]|].
      + destruct (line_cases _ _ _ _ _ _ _ _ _ _ _ P (conj Q1 Q2) L) as [(-> & _)|(streams & d & force & v & pe & _ & (A & tr & E & _) & Hv)].
        * split; [exists []; rewrite app_nil_r; reflexivity|]. split; [exact R|]. cbn. lia.
        * split; [exists tr; exact E|]. apply (alike_loud _ _ A). split; [exact R|]. cbn. destruct (quietness occs =? 0)%Z; [destruct (increase _ _ _ _ _)|]; lia.
      + assert (Eu : u0 = w_ui w); [|rewrite Eu; split; [exists []; rewrite app_nil_r; reflexivity|split; [exact R|lia]]].
        revert L. unfold parse_command_line. unfold bind_act at 1, lift at 1. rewrite P. cbv zeta. unfold bind_act at 1, ensure_act at 1, ensure, lift at 1. rewrite !times_count.
        destruct (_ && _) eqn:C; [|intros [= _ <-]; reflexivity]. apply andb_prop in C as [C1 C2]. apply Z.leb_le in C1, C2. unfold quietness in *. lia.
      + assert (Eu : u0 = w_ui w); [|rewrite Eu; split; [exists []; rewrite app_nil_r; reflexivity|split; [exact R|lia]]].
        revert L. unfold parse_command_line. unfold bind_act at 1, lift at 1. rewrite P. cbv zeta. unfold bind_act at 1, ensure_act at 1, ensure, lift at 1. rewrite !times_count.
        destruct (_ && _) eqn:C; [|intros [= _ <-]; reflexivity]. apply andb_prop in C as [C1 C2]. apply Z.leb_le in C1, C2. unfold quietness in *. lia.
    - assert (Eu : u0 = w_ui w); [|rewrite Eu; split; [exists []; rewrite app_nil_r; reflexivity|split; [exact R|lia]]].
      revert L. unfold parse_command_line. unfold bind_act at 1, lift at 1. rewrite P. intros [= _ <-]. reflexivity.
    - assert (Eu : u0 = w_ui w); [|rewrite Eu; split; [exists []; rewrite app_nil_r; reflexivity|split; [exact R|lia]]].
      revert L. unfold parse_command_line. unfold bind_act at 1, lift at 1. rewrite P. intros [= _ <-]. reflexivity. }
  destruct Z0 as [(t0 & E0) Lu0].
  assert (K : complains u0 (w_ui w')).
  { destruct X as [(c & -> & Hc)|[-> ->]].
    - pose proof (gentle_command _ _ _ _ _ _ _ Hc) as St. cbn [w_ui set_ui] in St.
      assert (Y : forall e', complains u0 (w_ui (set_ui w1 (snd (print_error e' (w_ui w1)))))).
      { intros e'. eapply complains_right; [exact St|]. cbn [w_ui set_ui]. destruct (alike_loud _ _ (proj1 St) Lu0) as [Ru Vu]. apply LL; assumption. }
      destruct e; destruct Hm as [_ ->]; try apply Y. exact (command_complains c (set_ui w u0) w1 Lu0 Hc).
    - pose proof (plain_line sha512 files args tin tout terr (w_ui w)) as NC. rewrite L in NC. cbn [fst] in NC.
      assert (Y : forall e', complains u0 (w_ui (set_ui (set_ui w u0) (snd (print_error e' (w_ui (set_ui w u0))))))).
      { intros e'. cbn [w_ui set_ui]. destruct Lu0 as [Ru Vu]. apply LL; assumption. }
      destruct e; destruct Hm as [_ ->]; try apply Y. exfalso. apply NC. reflexivity. }
  destruct K as (t1 & E1 & e1 & I1). exists (t0 ++ t1). split; [rewrite E1, E0; apply eq_sym, app_assoc|]. exists e1. apply in_or_app. auto.
Qed.
End WithEnvironment.

(** Proofs about how much appears on the terminal (C75). *)
From Coq.Strings Require Import Byte String.
From Coq Require Import List NArith ZArith Bool Permutation Lia.
From Verif Require Import Base BaseFacts Text Util CliErrors Getopts Crypto HeaderCrypto KeyFiles Io FileCrypto Ui UiSpec UiProofs2 CliCreds CliSpec CliProofs CliProofs3 Paths Cli Fs Commands PathSpec PathProofs OptSpec OptProofs CmdProofs CmdSpec ShowSpec ShowProofs ShowProofs2 QuietSpec.
Import ListNotations.
Local Open Scope N_scope.

(** ** What may appear, by the verbosity and the terminals *)
Definition asking (u : ui) : Prop := u_input_is_tty u = true /\ u_output_is_tty u = true /\ (-1 <= u_verbosity u)%Z.
Definition chatty (u : ui) : Prop := (0 <= u_verbosity u)%Z.
Definition allowed (u : ui) (e : event) : Prop :=
  chatty u \/ ((-1 <= u_verbosity u)%Z /\ error_event e) \/ (asking u /\ password_event e).
Definition alike (u u' : ui) : Prop :=
  u_input_is_tty u' = u_input_is_tty u /\ u_output_is_tty u' = u_output_is_tty u /\ u_verbosity u' = u_verbosity u /\
  (u_room u = None -> u_room u' = None).
Lemma alike_refl u : alike u u.
Proof. repeat split; auto. Qed.
Lemma alike_trans u v w : alike u v -> alike v w -> alike u w.
Proof. intros (A & B & C & D) (A' & B' & C' & D'). repeat split; [congruence..|auto]. Qed.
Lemma alike_asking u v : alike u v -> asking u -> asking v.
Proof. intros (A & B & C & D) (X & Y & Z). unfold asking. rewrite A, B, C. auto. Qed.
Lemma alike_chatty u v : alike u v -> chatty u -> chatty v.
Proof. intros (A & B & C & D) X. unfold chatty. rewrite C. auto. Qed.
Lemma alike_sym_allowed u v e : alike u v -> allowed v e -> allowed u e.
Proof. intros (A & B & C & D). unfold allowed, asking, chatty. rewrite A, B, C. auto. Qed.

Definition steady (u u' : ui) : Prop := alike u u' /\ exists tr, u_trace u' = u_trace u ++ tr /\ Forall (allowed u) tr.
Lemma steady_same u u' : alike u u' -> u_trace u' = u_trace u -> steady u u'.
Proof. intros A E. split; [exact A|]. exists []. rewrite app_nil_r. auto. Qed.
Lemma steady_refl u : steady u u.
Proof. apply steady_same; [apply alike_refl|reflexivity]. Qed.
Lemma steady_trans u v w : steady u v -> steady v w -> steady u w.
Proof.
  intros (A & t1 & E1 & F1) (B & t2 & E2 & F2). split; [eapply alike_trans; eassumption|]. exists (t1 ++ t2). split; [rewrite E2, E1; apply eq_sym, app_assoc|].
  apply Forall_app. split; [exact F1|]. eapply Forall_impl; [|exact F2]. intros e. apply alike_sym_allowed, A.
Qed.
Lemma steady_log u e : allowed u e -> steady u (log u e).
Proof. intros H. split; [repeat split; auto|]. exists [e]. split; [reflexivity|]. constructor; [exact H|constructor]. Qed.

(** ** Dialogues *)
Section Within.
Variable P : ui -> Prop.
Hypothesis P_alike : forall u v, alike u v -> P u -> P v.
Definition mild {A} (m : act A) : Prop := forall u, P u -> steady u (snd (m u)).

Lemma mild_lift {A} (x : outcome cerr A) : mild (lift x).
Proof. intros u _. apply steady_refl. Qed.
Lemma mild_ret {A} (a : A) : mild (ret a).
Proof. intros u _. apply steady_refl. Qed.
Lemma mild_bind {A B} (m : act A) (f : A -> act B) : mild m -> (forall a, mild (f a)) -> mild (bind_act m f).
Proof.
  intros Hm Hf u Hu. unfold bind_act. pose proof (Hm u Hu) as S1. destruct (m u) as [[a|e|] u1]; cbn [snd] in S1 |- *; try exact S1.
  eapply steady_trans; [exact S1|]. apply Hf. apply P_alike with u; [apply S1|exact Hu].
Qed.
Lemma mild_ignore {A} (m : act A) : mild m -> mild (ignore m).
Proof. intros Hm u Hu. unfold ignore. specialize (Hm u Hu). destruct (m u) as [[a|e|] u1]; exact Hm. Qed.
Lemma mild_emit m : (forall u, P u -> allowed u (Printed m)) -> mild (emit m).
Proof.
  intros H u Hu. unfold emit. destruct (u_room u) as [[|n]|] eqn:E; cbn [snd]; [apply steady_refl| |apply steady_log, H, Hu].
  split; [split; [|split; [|split]]; cbn; try reflexivity; congruence|]. exists [Printed m]. split; [reflexivity|]. constructor; [apply H, Hu|constructor].
Qed.
Lemma mild_interactive t : (forall u, P u -> allowed u (Printed (MLine t))) -> mild (println_interactive t).
Proof. intros H u Hu. unfold println_interactive. destruct (will_print u _); [apply mild_emit; assumption|apply steady_refl]. Qed.
Lemma mild_prompt p : (forall u, P u -> allowed u (Printed (MPrompt p))) -> (forall u line, P u -> allowed u (Typed line)) -> mild (read_prompt p).
Proof.
  intros H HT u Hu. unfold read_prompt. destruct (negb (can_read u)); [apply steady_refl|]. revert u Hu. apply mild_bind; [apply mild_emit, H|]. intros _ u Hu.
  destruct (u_input u) as [s|]; [|apply steady_refl]. destruct (read_chars _ s [] []) as [r s']. cbn [snd].
  eapply steady_trans; [apply (steady_same u (set_input u (Some s'))); [repeat split; auto|reflexivity]|].
  destruct r as [t|e|]; try apply steady_refl. apply steady_log. apply (HT (set_input u (Some s'))). apply P_alike with u; [repeat split; auto|exact Hu].
Qed.
End Within.

Lemma password_allowed u e : asking u -> password_event e -> allowed u e.
Proof. unfold allowed. auto. Qed.
Lemma mild_read_password p : (password_event (Printed (MPrompt p))) -> mild asking (read_password p).
Proof.
  intros Hp u Hu. unfold read_password. destruct (negb (can_read u)); [apply steady_refl|]. revert u Hu. apply (mild_bind asking alike_asking).
  { intros u Hu. apply steady_log. right. right. split; [exact Hu|constructor]. }
  intros _ u Hu.
  assert (M : mild asking (read_prompt p)) by (apply (mild_prompt asking alike_asking); intros; apply password_allowed; auto; constructor).
  specialize (M u Hu). destruct (read_prompt p u) as [r u1]. cbn [snd] in M. eapply steady_trans; [exact M|].
  assert (Hu1 : asking u1) by (eapply alike_asking; [apply M|exact Hu]). clear M Hu u. revert u1 Hu1.
  apply (mild_bind asking alike_asking). { intros u Hu. apply steady_log. right. right. split; [exact Hu|constructor]. }
  intros _. apply (mild_bind asking alike_asking); [|intros _; apply mild_lift]. apply mild_interactive. intros; apply password_allowed; auto; constructor.
Qed.
Lemma can_read_asking u : can_read u = true -> asking u.
Proof.
  unfold can_read, will_print, INTERACTIVE_VERBOSITY. intros H. apply andb_prop in H as [H V]. apply andb_prop in H as [H B]. apply andb_prop in H as [_ A]. apply Z.leb_le in V. repeat split; auto.
Qed.
Definition any (u : ui) : Prop := True.
Lemma alike_any u v : alike u v -> any u -> any v.
Proof. auto. Qed.
Lemma mild_interactively d n : mild any (read_password_interactively d n).
Proof.
  intros u _. unfold read_password_interactively. destruct (can_read u) eqn:C; [|apply steady_refl]. cbn [negb]. cbv zeta. apply can_read_asking in C. revert C.
  assert (Hm : password_event (Printed (MPrompt (lit "Enter password" ++ match n with Some n => lit " (" ++ n ++ lit ")" | None => [] end ++ lit ": ")))).
  { destruct n as [n|]; [|apply pw_ask]. pose proof (pw_ask_named n) as X. rewrite <- !app_assoc. exact X. }
  revert Hm. match goal with |- context [password_loop _ d ?msg] => generalize msg end. intros msg Hm.
  generalize (S (input_size u)) as fuel. intros fuel. revert u. change (mild asking (password_loop fuel d msg)).
  assert (I : forall t, password_event (Printed (MLine t)) -> mild asking (println_interactive t)) by (intros t Ht; apply mild_interactive; intros; apply password_allowed; auto).
  induction fuel as [|fuel IH]; [apply mild_lift|]. cbn [password_loop]. apply (mild_bind asking alike_asking); [apply mild_read_password, Hm|]. intros p.
  destruct (text_eqb p []); [apply (mild_bind asking alike_asking); [apply I; constructor|intros _; exact IH]|].
  apply (mild_bind asking alike_asking).
  - destruct (is_encrypt d); [|apply mild_ret]. apply (mild_bind asking alike_asking); [apply mild_read_password; constructor|]. intros q. apply mild_ret.
  - intros [|]; (apply (mild_bind asking alike_asking); [apply I; constructor|]); intros _; [apply mild_ret|exact IH].
Qed.
Lemma mild_question p d : mild any (read_prompt_bool 0 p d).
Proof.
  intros u _. unfold read_prompt_bool. destruct (can_read u) eqn:C; [|apply steady_refl]. destruct (will_print u 0) eqn:W; [|apply steady_refl]. cbn [negb orb]. cbv zeta.
  assert (H : chatty u) by (apply Z.leb_le, W). clear C W. generalize (S (input_size u)) as fuel. intros fuel. revert u H.
  match goal with |- context [prompt_loop _ ?q d] => generalize q end. intros q.
  apply (mild_bind chatty alike_chatty); [|intros b; apply mild_ret]. induction fuel as [|fuel IH]; [apply mild_lift|]. cbn [prompt_loop].
  assert (L : forall u e, chatty u -> allowed u e) by (intros; left; assumption).
  apply (mild_bind chatty alike_chatty); [apply (mild_prompt chatty alike_chatty); auto|]. intros r. cbv zeta. repeat (destruct (_ || _) || destruct (text_eqb _ _)); try apply mild_ret.
  apply (mild_bind chatty alike_chatty); [apply mild_interactive; auto|]. intros _. exact IH.
Qed.
Lemma mild_println t : mild any (ui_println 0 t).
Proof.
  intros u _. unfold ui_println. destruct (will_print u 0) eqn:W; [|apply steady_refl]. apply (mild_emit chatty); [intros; left; assumption|apply Z.leb_le, W].
Qed.
Lemma mild_error e : mild any (print_error e).
Proof.
  intros u _. unfold print_error, ERROR_VERBOSITY. destruct (will_print u _) eqn:W; [|apply steady_refl]. apply (mild_emit (fun u => (-1 <= u_verbosity u)%Z)); [|apply Z.leb_le, W].
  intros v Hv. right. left. split; [exact Hv|]. exists e. reflexivity.
Qed.
Local Notation bind := (mild_bind any alike_any).
Local Notation calm := (mild any).

Section WithEnvironment.
Variable sha512 : bytes -> bytes.
Variable files : text -> option bytes.

Lemma mild_read_token d s t : calm (read_token sha512 files d s t).
Proof.
  destruct t; cbn [read_token]; unfold ensure_act;
    try (apply mild_lift); (apply bind; [apply mild_interactively || apply mild_lift|]); intros ?; try apply mild_ret; try apply mild_lift.
  apply bind; [apply mild_lift|]. intros ?. apply mild_ret.
Qed.
Lemma mild_add_creds st cs : calm (add_creds st cs).
Proof. apply bind; [apply mild_lift|]. intros ?. apply mild_ret. Qed.
Lemma mild_parse_loop d s fuel : forall level st ts, calm (parse_loop sha512 files fuel d s level st ts).
Proof.
  induction fuel as [|fuel IH]; intros level st ts; [apply mild_lift|]. cbn [parse_loop].
  destruct ts as [|t ts]; [apply bind; [apply mild_lift|intros ?; apply mild_ret]|].
  apply bind; [apply mild_lift|]. intros _. apply bind; [apply mild_lift|]. intros _.
  destruct t;
    try (apply bind; [apply mild_read_token|]; intros cs; apply bind; [apply mild_add_creds|]; intros st'; apply IH);
    try (apply bind; [apply mild_lift|]; intros ?; apply IH).
  - apply bind; [apply IH|]. intros [c ts']. apply bind; [apply mild_add_creds|]. intros st'. apply IH.
  - apply bind; [apply mild_lift|]. intros ?. apply mild_ret.
Qed.
Lemma mild_complex d s ts : calm (parse_complex_credential sha512 files d s ts).
Proof. apply bind; [apply mild_parse_loop|]. intros [c l]. apply mild_ret. Qed.
Lemma mild_get_encrypt m force : calm (get_encrypt_credential sha512 files m force).
Proof. apply bind; [apply mild_lift|]. intros ts. apply mild_complex. Qed.
Lemma mild_get_decrypt m force : calm (get_decrypt_credentials sha512 files m force).
Proof.
  apply bind; [apply mild_lift|]. intros ts. apply bind; [apply mild_complex|]. intros c. destruct c; try apply mild_lift.
  apply bind; [apply mild_lift|]. intros _. apply bind; [apply mild_lift|]. intros _. apply mild_lift.
Qed.
End WithEnvironment.

(** ** Commands *)
Definition gentle {A} (m : io A) : Prop := forall w r w', m w r w' -> steady (w_ui w) (w_ui w').
Lemma gentle_lift {A} (x : outcome cerr A) : gentle (io_lift x).
Proof. intros w r w' [_ ->]. apply steady_refl. Qed.
Lemma gentle_ret {A} (a : A) : gentle (io_ret a).
Proof. intros w r w' [_ ->]. apply steady_refl. Qed.
Lemma gentle_ui {A} (m : act A) : calm m -> gentle (io_ui m).
Proof. intros H w r w' [_ ->]. cbn [w_ui set_ui]. apply H. exact I. Qed.
Lemma gentle_bind {A B} (m : io A) (f : A -> io B) : gentle m -> (forall a, gentle (f a)) -> gentle (io_bind m f).
Proof.
  intros Hm Hf w r w' [(a & w1 & E & H)|[(e & E & _)|[E _]]].
  - eapply steady_trans; [exact (Hm _ _ _ E)|exact (Hf _ _ _ _ H)].
  - exact (Hm _ _ _ E).
  - exact (Hm _ _ _ E).
Qed.
Lemma gentle_try {A} (m : io A) : gentle m -> gentle (io_try m).
Proof. intros Hm w r w' [(x & _ & E & _)|[E _]]; exact (Hm _ _ _ E). Qed.
Lemma gentle_still {A} (m : io A) : (forall w r w', m w r w' -> w_ui w' = w_ui w) -> gentle m.
Proof. intros H w r w' E. rewrite (H _ _ _ E). apply steady_refl. Qed.

Section WithEnvironment.
Variable entry_of : names.
Variable lib : crypto_lib.

Lemma gentle_open_file p : gentle (open_file entry_of p).
Proof.
  apply gentle_bind; [apply gentle_still; intros w r w' (-> & _); reflexivity|]. intros rd.
  apply gentle_bind; [apply gentle_still; intros w r w' (-> & _); reflexivity|]. intros md.
  apply gentle_bind; [apply gentle_lift|]. intros _. apply gentle_ret.
Qed.
Lemma gentle_open_input i force : gentle (open_input entry_of i force).
Proof.
  destruct i as [p|p|]; cbn [open_input].
  - apply gentle_bind; [apply gentle_open_file|]. intros [rd md]. do 3 (apply gentle_bind; [apply gentle_lift|]; intros _). apply gentle_ret.
  - apply gentle_bind; [apply gentle_open_file|]. intros [rd md]. apply gentle_ret.
  - intros w r w' H. unfold open_stdin in H. destruct (u_input (w_ui w)); destruct H as [-> ->]; [|apply steady_refl].
    apply steady_same; [repeat split; auto|reflexivity].
Qed.
Lemma gentle_open_output o force : gentle (open_output entry_of o force).
Proof.
  destruct o as [p|]; cbn [open_output]; [|apply gentle_ret]. destruct force; apply gentle_still.
  - intros w r w' [(-> & -> & _)|(s & t & i & _ & _ & -> & [(_ & _ & ->)|(n & _ & _ & ->)])]; try reflexivity. destruct (n_regular n); reflexivity.
  - intros w r w' [(-> & -> & _)|(s & i & _ & _ & _ & -> & ->)]; reflexivity.
Qed.
Lemma gentle_remove_cb p force : gentle (remove_cb entry_of p force).
Proof.
  apply gentle_bind.
  - apply gentle_try, gentle_still. intros w r w' H. unfold remove_file in H. destruct (entry_number entry_of p) as [s|]; [destruct (f_entries (w_fs w) s) as [[]|]|].
    1,2: destruct H as [(_ & -> & ->)|[-> ->]]; reflexivity.
    all: destruct H as [-> ->]; reflexivity.
  - intros [a|e|]; try apply gentle_ret. destruct force; [apply gentle_ret|]. apply gentle_ui, mild_ignore, mild_error.
Qed.
Lemma steady_progress n : forall u, steady u (progress_lines n u).
Proof.
  induction n as [|n IH]; intros u; cbn [progress_lines]; [apply steady_refl|]. apply steady_trans with (snd (println_progress 0 u)); [|apply IH].
  unfold println_progress. destruct (u_progress_enabled u); [|apply steady_refl].
  destruct (will_print u 0) eqn:W; [|apply steady_refl]. apply (mild_emit chatty); [intros; left; assumption|apply Z.leb_le, W].
Qed.
Lemma gentle_convert d rd wr : gentle (convert entry_of lib d rd wr).
Proof.
  intros w r w' (er & src & room & fl & r0 & snk & lines & _ & _ & _ & _ & H).
  destruct H as [[_ ->]|(_ & _ & out & _ & ->)]; cbv zeta; cbn [set_ui w_ui]; rewrite write_ui; apply steady_progress.
Qed.
Lemma gentle_attempt {k n} s force d : gentle (attempt entry_of lib k n s force d).
Proof.
  apply gentle_bind.
  - apply gentle_try. apply gentle_bind; [apply gentle_ui, mild_ignore, mild_println|]. intros _. apply gentle_bind; [apply gentle_lift|]. intros o.
    apply gentle_bind; [apply gentle_open_input|]. intros rd. apply gentle_bind; [apply gentle_open_output|]. intros wr. apply gentle_ret.
  - intros [[[rd wr] cb]|e|]; [|apply gentle_ret|apply gentle_lift]. apply gentle_bind; [apply gentle_try, gentle_convert|]. intros r. apply gentle_ret.
Qed.
Lemma gentle_step {k n} s force d : gentle (step entry_of lib k n s force d).
Proof.
  apply gentle_bind; [apply gentle_attempt|]. intros [[a|e|] cb]; [apply gentle_ret| |apply gentle_lift].
  apply gentle_bind; [apply gentle_ui, mild_ignore, mild_error|]. intros _. apply gentle_bind; [destruct cb; [apply gentle_remove_cb|apply gentle_ret]|]. intros _. apply gentle_ret.
Qed.
Lemma gentle_process {k n} streams force d : gentle (process entry_of lib k n streams force d).
Proof.
  revert k. induction streams as [|s streams IH]; intros k; cbn [process]; [apply gentle_ret|]. apply gentle_bind; [apply gentle_step|]. intros [c e].
  apply gentle_bind; [apply gentle_ui, mild_println|]. intros _. apply gentle_bind; [apply IH|]. intros [c' e']. apply gentle_ret.
Qed.
Lemma gentle_remove_all cbs force : gentle (remove_all entry_of cbs force).
Proof. induction cbs as [|p cbs IH]; cbn [remove_all]; [apply gentle_ret|]. apply gentle_bind; [apply gentle_remove_cb|]. intros _. exact IH. Qed.
Lemma gentle_crypt streams policy force d : gentle (crypt_streams entry_of lib streams policy force d).
Proof.
  apply gentle_bind; [apply gentle_process|]. intros [cbs errors]. apply gentle_bind; [|intros _; apply gentle_lift].
  destruct cbs as [|p cbs]; [apply gentle_ret|]. apply gentle_bind.
  - destruct policy; try apply gentle_ret. apply gentle_bind; [apply gentle_ui, mild_question|]. intros a. apply gentle_ret.
  - intros b. destruct b; [apply gentle_remove_all|apply gentle_ret].
Qed.

Variable sha512 : bytes -> bytes.
Lemma gentle_write wr t : gentle (write_text entry_of wr t).
Proof. apply gentle_still. intros w r w' [[-> ->]|(_ & -> & out & _ & ->)]; apply write_ui. Qed.
Lemma gentle_pair k force a b : gentle (write_pair entry_of k force a b).
Proof.
  apply gentle_bind.
  - destruct (k_public k) as [p|]; [|apply gentle_ret]. apply gentle_bind; [apply gentle_ui, mild_println|]. intros _.
    apply gentle_bind; [apply gentle_open_output|]. intros wr. apply gentle_write.
  - intros _. apply gentle_bind; [apply gentle_ui, mild_println|]. intros _. apply gentle_bind; [apply gentle_open_output|]. intros wr. apply gentle_write.
Qed.
Lemma gentle_generate_all {k n} cs streams force : gentle (generate_all entry_of sha512 k n cs streams force).
Proof.
  revert k. induction streams as [|ks streams IH]; intros k; cbn [generate_all]; [apply gentle_ret|]. apply gentle_bind.
  { apply gentle_still. intros w r w' (-> & _). reflexivity. }
  intros [pk sk]. apply gentle_bind; [apply gentle_lift|]. intros [a b].
  apply gentle_bind; [apply gentle_ui, mild_println|]. intros _. apply gentle_bind; [apply gentle_ui, mild_println|]. intros _.
  apply gentle_bind; [apply gentle_try, gentle_pair|]. intros res. apply gentle_bind.
  { destruct res; [apply gentle_ret| |apply gentle_lift]. apply gentle_bind; [apply gentle_ui, mild_error|]. intros _. apply gentle_ret. }
  intros es. apply gentle_bind; [apply gentle_ui, mild_println|]. intros _. apply gentle_bind; [apply IH|]. intros es'. apply gentle_ret.
Qed.
Lemma gentle_generate streams force : gentle (generate_key_pair_files entry_of lib sha512 streams force).
Proof. apply gentle_bind; [apply gentle_lift|]. intros cs. apply gentle_bind; [apply gentle_generate_all|]. intros es. apply gentle_lift. Qed.
Lemma gentle_text : gentle (print_text entry_of).
Proof. apply gentle_still. intros w r w' (out & -> & _). apply write_ui. Qed.
Lemma gentle_command c : gentle (run_command entry_of lib sha512 c).
Proof. destruct c; cbn [run_command]; [apply gentle_crypt|apply gentle_generate|apply gentle_text|apply gentle_text]. Qed.
End WithEnvironment.

(** Proofs about the settings of the terminal (C82). *)
From Coq.Strings Require Import Byte String.
From Coq Require Import List NArith ZArith Bool Lia.
From Verif Require Import Base BaseFacts Text Util CliErrors Getopts Crypto HeaderCrypto KeyFiles Io FileCrypto Ui CliCreds Paths Cli Fs Commands ShowProofs2 Terminal TerminalSpec.
Import ListNotations.
Local Open Scope N_scope.

(** ** The settings *)
Lemma same_refl t : same_settings t t.
Proof. repeat split; auto. Qed.
Lemma same_trans t u v : same_settings t u -> same_settings u v -> same_settings t v.
Proof.
  intros (A & B & C & D & E & F & G & H) (A' & B' & C' & D' & E' & F' & G' & H').
  repeat split; try congruence. intros i Hi. rewrite H', H; auto.
Qed.
Lemma echo_bit i : i <> 3 -> N.testbit ECHO i = false.
Proof. intros Hi. change ECHO with (2 ^ 3). apply N.pow2_bits_false. auto. Qed.
Lemma switch_same b t : exists t', switch_echo b (Some t) = Some t' /\ same_settings t t' /\ N.testbit (c_lflag t') 3 = b.
Proof.
  unfold switch_echo. cbn [tcgetattr tcsetattr]. eexists. split; [reflexivity|]. cbn. split; [repeat split|]; cbn.
  - intros i Hi. pose proof (echo_bit i Hi) as Z. destruct b; [rewrite N.lor_spec|rewrite N.ldiff_spec]; rewrite Z; [apply orb_false_r|apply andb_true_r].
  - destruct b; [rewrite N.lor_spec|rewrite N.ldiff_spec]; [apply orb_true_r|apply andb_false_r].
Qed.
Lemma after_app tty a b : terminal_after tty (a ++ b) = terminal_after (terminal_after tty a) b.
Proof. apply fold_left_app. Qed.
Lemma after_none tr : terminal_after None tr = None.
Proof. induction tr as [|[m|on|l] tr IH]; cbn; auto. Qed.
Lemma after_same tr : forall t, exists t', terminal_after (Some t) tr = Some t' /\ same_settings t t'.
Proof.
  induction tr as [|e tr IH]; intros t; [exists t; split; [reflexivity|apply same_refl]|].
  destruct e as [m|on|l]; cbn [terminal_after fold_left]; try apply IH.
  destruct (switch_same on t) as (t1 & E & S1 & _). change (fold_left _ tr (switch_echo on (Some t))) with (terminal_after (switch_echo on (Some t)) tr). rewrite E.
  destruct (IH t1) as (t' & E' & S2). exists t'. split; [exact E'|]. eapply same_trans; eassumption.
Qed.
Lemma same_shown t t' : same_settings t t' -> N.testbit (c_lflag t') 3 = N.testbit (c_lflag t) 3 -> t' = t.
Proof.
  destruct t, t'. unfold same_settings. cbn. intros (-> & -> & -> & -> & -> & -> & -> & H) B. f_equal. apply N.bits_inj. intros i.
  destruct (N.eq_dec i 3) as [->|Hi]; [exact B|apply H, Hi].
Qed.

(** ** What happens in a run *)
Inductive segment : list event -> Prop :=
| sg_said m : segment [Printed m]
| sg_asked p l : p = lit "Remove original file(s)? [y/N]: " -> segment [Printed (MPrompt p); Typed l]
| sg_secret p l : password_prompt p -> segment [Echo false; Printed (MPrompt p); Typed l; Echo true]
| sg_cut p : segment [Echo false; Printed (MPrompt p); Echo true]
| sg_dumb : segment [Echo false; Echo true].
Inductive conversation : list event -> Prop :=
| cv_nil : conversation []
| cv_seg s tr : segment s -> conversation tr -> conversation (s ++ tr).
Lemma conversation_app a b : conversation a -> conversation b -> conversation (a ++ b).
Proof. intros Ha Hb. induction Ha as [|s tr Hs _ IH]; [exact Hb|]. rewrite <- app_assoc. constructor; assumption. Qed.
Lemma conversation_one s : segment s -> conversation s.
Proof. intros H. rewrite <- (app_nil_r s). constructor; [exact H|constructor]. Qed.

Definition steady (u u' : ui) : Prop := exists tr, u_trace u' = u_trace u ++ tr /\ conversation tr.
Lemma steady_same u u' : u_trace u' = u_trace u -> steady u u'.
Proof. intros E. exists []. rewrite app_nil_r. split; [exact E|constructor]. Qed.
Lemma steady_refl u : steady u u.
Proof. apply steady_same. reflexivity. Qed.
Lemma steady_trans u v w : steady u v -> steady v w -> steady u w.
Proof.
  intros (t1 & E1 & F1) (t2 & E2 & F2). exists (t1 ++ t2). split; [rewrite E2, E1; apply eq_sym, app_assoc|]. apply conversation_app; assumption.
Qed.
Definition calm {A} (m : act A) : Prop := forall u, steady u (snd (m u)).
Lemma calm_lift {A} (x : outcome cerr A) : calm (lift x).
Proof. intros u. apply steady_refl. Qed.
Lemma calm_ret {A} (a : A) : calm (ret a).
Proof. intros u. apply steady_refl. Qed.
Lemma calm_bind {A B} (m : act A) (f : A -> act B) : calm m -> (forall a, calm (f a)) -> calm (bind_act m f).
Proof.
  intros Hm Hf u. unfold bind_act. pose proof (Hm u) as S1. destruct (m u) as [[a|e|] u1]; cbn [snd] in S1 |- *; try exact S1.
  eapply steady_trans; [exact S1|]. apply Hf.
Qed.
Lemma calm_ignore {A} (m : act A) : calm m -> calm (ignore m).
Proof. intros Hm u. unfold ignore. specialize (Hm u). destruct (m u) as [[a|e|] u1]; exact Hm. Qed.
(** What [emit] does: nothing, or the message. *)
Lemma emit_cases m u : (exists e, emit m u = (Err e, u)) \/ exists u', emit m u = (Ok tt, u') /\ u_trace u' = u_trace u ++ [Printed m] /\ u_input u' = u_input u.
Proof.
  unfold emit. destruct (u_room u) as [[|n]|]; [left; eexists; reflexivity|right..]; eexists; (split; [reflexivity|split; reflexivity]).
Qed.
Lemma calm_emit m : calm (emit m).
Proof.
  intros u. destruct (emit_cases m u) as [(e & E)|(u' & E & T & _)]; rewrite E; cbn [snd]; [apply steady_refl|]. exists [Printed m]. split; [exact T|]. apply conversation_one. constructor.
Qed.
Lemma calm_interactive t : calm (println_interactive t).
Proof. intros u. unfold println_interactive. destruct (will_print u _); [apply calm_emit|apply steady_refl]. Qed.
Lemma calm_println v t : calm (ui_println v t).
Proof. intros u. unfold ui_println. destruct (will_print u _); [apply calm_emit|apply steady_refl]. Qed.
Lemma calm_error e : calm (print_error e).
Proof. intros u. unfold print_error. destruct (will_print u _); [apply calm_emit|apply steady_refl]. Qed.
(** What a prompt does. *)
Lemma prompt_trace p u : exists tr, u_trace (snd (read_prompt p u)) = u_trace u ++ tr /\ (tr = [] \/ tr = [Printed (MPrompt p)] \/ exists l, tr = [Printed (MPrompt p); Typed l]).
Proof.
  unfold read_prompt. destruct (negb (can_read u)); [exists []; rewrite app_nil_r; auto|]. unfold bind_act.
  destruct (emit_cases (MPrompt p) u) as [(e & E)|(u' & E & T & _)]; rewrite E; cbn [snd]; [exists []; rewrite app_nil_r; auto|].
  destruct (u_input u') as [s|]; [|exists [Printed (MPrompt p)]; auto]. destruct (read_chars _ s [] []) as [[t|e|] s']; cbn [snd].
  - exists [Printed (MPrompt p); Typed t]. split; [cbn; rewrite T, <- app_assoc; reflexivity|right; right; eauto].
  - exists [Printed (MPrompt p)]. split; [exact T|auto].
  - exists [Printed (MPrompt p)]. split; [exact T|auto].
Qed.
Lemma calm_password p : password_prompt p -> calm (read_password p).
Proof.
  intros Hp u. unfold read_password. destruct (negb (can_read u)); [apply steady_refl|]. unfold bind_act at 1. cbn [set_stdin_echo].
  destruct (prompt_trace p (log u (Echo false))) as (tr & E & Htr). destruct (read_prompt p (log u (Echo false))) as [r u1]. cbn [snd] in E.
  unfold bind_act at 1. cbn [set_stdin_echo]. apply steady_trans with (log u1 (Echo true)).
  - exists ([Echo false] ++ tr ++ [Echo true]). split; [cbn [log u_trace] in *; rewrite E, <- !app_assoc; reflexivity|]. apply conversation_one.
    destruct Htr as [->|[->|(l & ->)]]; constructor; exact Hp.
  - match goal with |- steady ?v (snd (?m ?v)) => apply (calm_bind (println_interactive []) (fun _ => lift r)) end; [apply calm_interactive|intros _; apply calm_lift].
Qed.
Lemma calm_interactively d n : calm (read_password_interactively d n).
Proof.
  intros u. unfold read_password_interactively. destruct (can_read u) eqn:C; [|apply steady_refl]. cbn [negb]. cbv zeta.
  assert (Hm : password_prompt (lit "Enter password" ++ match n with Some n => lit " (" ++ n ++ lit ")" | None => [] end ++ lit ": ")).
  { destruct n as [n|]; [|exact pp_enter]. pose proof (pp_named n) as X. rewrite <- !app_assoc. exact X. }
  revert Hm. match goal with |- context [password_loop _ d ?msg] => generalize msg end. intros msg Hm.
  generalize (S (input_size u)) as fuel. intros fuel. clear C. revert u. change (calm (password_loop fuel d msg)).
  induction fuel as [|fuel IH]; [apply calm_lift|]. cbn [password_loop]. apply calm_bind; [apply calm_password, Hm|]. intros p.
  destruct (text_eqb p []); [apply calm_bind; [apply calm_interactive|intros _; exact IH]|]. apply calm_bind.
  - destruct (is_encrypt d); [|apply calm_ret]. apply calm_bind; [apply calm_password; constructor|]. intros q. apply calm_ret.
  - intros [|]; (apply calm_bind; [apply calm_interactive|]); intros _; [apply calm_ret|exact IH].
Qed.
Lemma calm_question : calm (read_prompt_bool 0 question false).
Proof.
  intros u. unfold read_prompt_bool. destruct (negb (can_read u) || negb (will_print u 0)); [apply steady_refl|]. cbv zeta.
  change (question ++ [32] ++ lit (if false then "[Y/n]" else "[y/N]") ++ lit ": ") with (lit "Remove original file(s)? [y/N]: ").
  generalize (S (input_size u)) as fuel. intros fuel. revert u. match goal with |- forall u, steady u (snd (?m u)) => change (calm m) end.
  apply calm_bind; [|intros b; apply calm_ret]. induction fuel as [|fuel IH]; [apply calm_lift|]. cbn [prompt_loop]. apply calm_bind.
  - intros u. destruct (prompt_trace (lit "Remove original file(s)? [y/N]: ") u) as (tr & E & Htr). exists tr. split; [exact E|].
    destruct Htr as [->|[->|(l & ->)]]; [constructor|apply conversation_one; constructor..]. reflexivity.
  - intros r. cbv zeta. repeat (destruct (_ || _) || destruct (text_eqb _ _)); try apply calm_ret. apply calm_bind; [apply calm_interactive|]. intros _. exact IH.
Qed.

Section WithEnvironment.
Variable sha512 : bytes -> bytes.
Variable files : text -> option bytes.
Local Notation bind := calm_bind.

Lemma calm_read_token d s t : calm (read_token sha512 files d s t).
Proof.
  destruct t; cbn [read_token]; unfold ensure_act;
    try (apply calm_lift); (apply bind; [apply calm_interactively || apply calm_lift|]); intros ?; try apply calm_ret; try apply calm_lift.
  apply bind; [apply calm_lift|]. intros ?. apply calm_ret.
Qed.
Lemma calm_add_creds st cs : calm (add_creds st cs).
Proof. apply bind; [apply calm_lift|]. intros ?. apply calm_ret. Qed.
Lemma calm_parse_loop d s fuel : forall level st ts, calm (parse_loop sha512 files fuel d s level st ts).
Proof.
  induction fuel as [|fuel IH]; intros level st ts; [apply calm_lift|]. cbn [parse_loop].
  destruct ts as [|t ts]; [apply bind; [apply calm_lift|intros ?; apply calm_ret]|].
  apply bind; [apply calm_lift|]. intros _. apply bind; [apply calm_lift|]. intros _.
  destruct t;
    try (apply bind; [apply calm_read_token|]; intros cs; apply bind; [apply calm_add_creds|]; intros st'; apply IH);
    try (apply bind; [apply calm_lift|]; intros ?; apply IH).
  - apply bind; [apply IH|]. intros [c ts']. apply bind; [apply calm_add_creds|]. intros st'. apply IH.
  - apply bind; [apply calm_lift|]. intros ?. apply calm_ret.
Qed.
Lemma calm_complex d s ts : calm (parse_complex_credential sha512 files d s ts).
Proof. apply bind; [apply calm_parse_loop|]. intros [c l]. apply calm_ret. Qed.
Lemma calm_get_encrypt m force : calm (get_encrypt_credential sha512 files m force).
Proof. apply bind; [apply calm_lift|]. intros ts. apply calm_complex. Qed.
Lemma calm_get_decrypt m force : calm (get_decrypt_credentials sha512 files m force).
Proof.
  apply bind; [apply calm_lift|]. intros ts. apply bind; [apply calm_complex|]. intros c. destruct c; try apply calm_lift.
  apply bind; [apply calm_lift|]. intros _. apply bind; [apply calm_lift|]. intros _. apply calm_lift.
Qed.
Lemma calm_check v streams d force a b c : calm (check_and_adjust_ui_verbosity v streams d force a b c).
Proof.
  intros u. unfold check_and_adjust_ui_verbosity. cbv zeta. destruct (_ && negb force); [apply steady_refl|]. destruct (_ && negb force); [apply steady_refl|].
  destruct (v =? 0)%Z; apply steady_same; reflexivity.
Qed.
Lemma calm_command_line args a b c : calm (parse_command_line sha512 files args a b c).
Proof.
  apply bind; [apply calm_lift|]. intros m. cbv zeta. apply bind; [apply calm_lift|]. intros _. apply bind; [intros u; apply steady_same; reflexivity|]. intros _.
  match goal with |- calm (match ?x with _ => _ end) => destruct x as [d| | |] end; try apply calm_ret.
  - apply bind; [apply calm_lift|]. intros streams. apply bind; [apply calm_check|]. intros _. apply bind.
    + destruct (opt_present m OKeepInputs), (opt_present m ODiscardInputs); try apply calm_ret. apply calm_lift.
    + intros policy. apply bind; [|intros dir; apply calm_ret]. destruct d; (apply bind; [apply calm_get_encrypt || apply calm_get_decrypt|intros x; apply calm_ret]).
  - apply bind; [apply calm_lift|]. intros ks. apply calm_ret.
Qed.
End WithEnvironment.

(** ** Commands *)
Definition gentle {A} (m : io A) : Prop := forall w r w', m w r w' -> steady (w_ui w) (w_ui w').
Lemma gentle_lift {A} (x : outcome cerr A) : gentle (io_lift x).
Proof. intros w r w' [_ ->]. apply steady_refl. Qed.
Lemma gentle_ret {A} (a : A) : gentle (io_ret a).
Proof. intros w r w' [_ ->]. apply steady_refl. Qed.
Lemma gentle_ui {A} (m : act A) : calm m -> gentle (io_ui m).
Proof. intros H w r w' [_ ->]. cbn [w_ui set_ui]. apply H. Qed.
Lemma gentle_bind {A B} (m : io A) (f : A -> io B) : gentle m -> (forall a, gentle (f a)) -> gentle (io_bind m f).
Proof.
  intros Hm Hf w r w' [(a & w1 & E & H)|[(e & E & _)|[E _]]].
  - eapply steady_trans; [exact (Hm _ _ _ E)|exact (Hf _ _ _ _ H)].
  - exact (Hm _ _ _ E).
  - exact (Hm _ _ _ E).
Qed.
Lemma gentle_try {A} (m : io A) : gentle m -> gentle (io_try m).
Proof. intros Hm w r w' [(x & _ & E & _)|[E _]]; exact (Hm _ _ _ E). Qed.
Lemma gentle_still {A} (m : io A) : (forall w r w', m w r w' -> w_ui w' = w_ui w) -> gentle m.
Proof. intros H w r w' E. rewrite (H _ _ _ E). apply steady_refl. Qed.

Section Commands.
Variable entry_of : names.
Variable lib : crypto_lib.

Lemma gentle_open_file p : gentle (open_file entry_of p).
Proof.
  apply gentle_bind; [apply gentle_still; intros w r w' (-> & _); reflexivity|]. intros rd.
  apply gentle_bind; [apply gentle_still; intros w r w' (-> & _); reflexivity|]. intros md.
  apply gentle_bind; [apply gentle_lift|]. intros _. apply gentle_ret.
Qed.
Lemma gentle_open_input i force : gentle (open_input entry_of i force).
Proof.
  destruct i as [p|p|]; cbn [open_input].
  - apply gentle_bind; [apply gentle_open_file|]. intros [rd md]. do 3 (apply gentle_bind; [apply gentle_lift|]; intros _). apply gentle_ret.
  - apply gentle_bind; [apply gentle_open_file|]. intros [rd md]. apply gentle_ret.
  - intros w r w' H. unfold open_stdin in H. destruct (u_input (w_ui w)); destruct H as [-> ->]; apply steady_same; reflexivity.
Qed.
Lemma gentle_open_output o force : gentle (open_output entry_of o force).
Proof.
  destruct o as [p|]; cbn [open_output]; [|apply gentle_ret]. destruct force; apply gentle_still.
  - intros w r w' [(-> & -> & _)|(s & t & i & _ & _ & -> & [(_ & _ & ->)|(n & _ & _ & ->)])]; try reflexivity. destruct (n_regular n); reflexivity.
  - intros w r w' [(-> & -> & _)|(s & i & _ & _ & _ & -> & ->)]; reflexivity.
Qed.
Lemma gentle_remove_cb p force : gentle (remove_cb entry_of p force).
Proof.
  apply gentle_bind.
  - apply gentle_try, gentle_still. intros w r w' H. unfold remove_file in H. destruct (entry_number entry_of p) as [s|]; [destruct (f_entries (w_fs w) s) as [[]|]|].
    1,2: destruct H as [(_ & -> & ->)|[-> ->]]; reflexivity.
    all: destruct H as [-> ->]; reflexivity.
  - intros [a|e|]; try apply gentle_ret. destruct force; [apply gentle_ret|]. apply gentle_ui, calm_ignore, calm_error.
Qed.
Lemma steady_progress n : forall u, steady u (progress_lines n u).
Proof.
  induction n as [|n IH]; intros u; cbn [progress_lines]; [apply steady_refl|]. apply steady_trans with (snd (println_progress 0 u)); [|apply IH].
  unfold println_progress. destruct (u_progress_enabled u); [|apply steady_refl]. destruct (will_print u 0); [apply calm_emit|apply steady_refl].
Qed.
Lemma gentle_convert d rd wr : gentle (convert entry_of lib d rd wr).
Proof.
  intros w r w' (er & src & room & fl & r0 & snk & lines & _ & _ & _ & _ & H).
  destruct H as [[_ ->]|(_ & _ & out & _ & ->)]; cbv zeta; cbn [set_ui w_ui]; rewrite write_ui; apply steady_progress.
Qed.
Lemma gentle_attempt {k n} s force d : gentle (attempt entry_of lib k n s force d).
Proof.
  apply gentle_bind.
  - apply gentle_try. apply gentle_bind; [apply gentle_ui, calm_ignore, calm_println|]. intros _. apply gentle_bind; [apply gentle_lift|]. intros o.
    apply gentle_bind; [apply gentle_open_input|]. intros rd. apply gentle_bind; [apply gentle_open_output|]. intros wr. apply gentle_ret.
  - intros [[[rd wr] cb]|e|]; [|apply gentle_ret|apply gentle_lift]. apply gentle_bind; [apply gentle_try, gentle_convert|]. intros r. apply gentle_ret.
Qed.
Lemma gentle_step {k n} s force d : gentle (step entry_of lib k n s force d).
Proof.
  apply gentle_bind; [apply gentle_attempt|]. intros [[a|e|] cb]; [apply gentle_ret| |apply gentle_lift].
  apply gentle_bind; [apply gentle_ui, calm_ignore, calm_error|]. intros _. apply gentle_bind; [destruct cb; [apply gentle_remove_cb|apply gentle_ret]|]. intros _. apply gentle_ret.
Qed.
Lemma gentle_process {k n} streams force d : gentle (process entry_of lib k n streams force d).
Proof.
  revert k. induction streams as [|s streams IH]; intros k; cbn [process]; [apply gentle_ret|]. apply gentle_bind; [apply gentle_step|]. intros [c e].
  apply gentle_bind; [apply gentle_ui, calm_println|]. intros _. apply gentle_bind; [apply IH|]. intros [c' e']. apply gentle_ret.
Qed.
Lemma gentle_remove_all cbs force : gentle (remove_all entry_of cbs force).
Proof. induction cbs as [|p cbs IH]; cbn [remove_all]; [apply gentle_ret|]. apply gentle_bind; [apply gentle_remove_cb|]. intros _. exact IH. Qed.
Lemma gentle_crypt streams policy force d : gentle (crypt_streams entry_of lib streams policy force d).
Proof.
  apply gentle_bind; [apply gentle_process|]. intros [cbs errors]. apply gentle_bind; [|intros _; apply gentle_lift].
  destruct cbs as [|p cbs]; [apply gentle_ret|]. apply gentle_bind.
  - destruct policy; try apply gentle_ret. apply gentle_bind; [apply gentle_ui, calm_question|]. intros a. apply gentle_ret.
  - intros b. destruct b; [apply gentle_remove_all|apply gentle_ret].
Qed.

Variable sha512 : bytes -> bytes.
Lemma gentle_write wr t : gentle (write_text entry_of wr t).
Proof. apply gentle_still. intros w r w' [[-> ->]|(_ & -> & out & _ & ->)]; apply write_ui. Qed.
Lemma gentle_pair k force a b : gentle (write_pair entry_of k force a b).
Proof.
  apply gentle_bind.
  - destruct (k_public k) as [p|]; [|apply gentle_ret]. apply gentle_bind; [apply gentle_ui, calm_println|]. intros _.
    apply gentle_bind; [apply gentle_open_output|]. intros wr. apply gentle_write.
  - intros _. apply gentle_bind; [apply gentle_ui, calm_println|]. intros _. apply gentle_bind; [apply gentle_open_output|]. intros wr. apply gentle_write.
Qed.
Lemma gentle_generate_all {k n} cs streams force : gentle (generate_all entry_of sha512 k n cs streams force).
Proof.
  revert k. induction streams as [|ks streams IH]; intros k; cbn [generate_all]; [apply gentle_ret|]. apply gentle_bind.
  { apply gentle_still. intros w r w' (-> & _). reflexivity. }
  intros [pk sk]. apply gentle_bind; [apply gentle_lift|]. intros [a b].
  apply gentle_bind; [apply gentle_ui, calm_println|]. intros _. apply gentle_bind; [apply gentle_ui, calm_println|]. intros _.
  apply gentle_bind; [apply gentle_try, gentle_pair|]. intros res. apply gentle_bind.
  { destruct res; [apply gentle_ret| |apply gentle_lift]. apply gentle_bind; [apply gentle_ui, calm_error|]. intros _. apply gentle_ret. }
  intros es. apply gentle_bind; [apply gentle_ui, calm_println|]. intros _. apply gentle_bind; [apply IH|]. intros es'. apply gentle_ret.
Qed.
Lemma gentle_generate streams force : gentle (generate_key_pair_files entry_of lib sha512 streams force).
Proof. apply gentle_bind; [apply gentle_lift|]. intros cs. apply gentle_bind; [apply gentle_generate_all|]. intros es. apply gentle_lift. Qed.
Lemma gentle_text : gentle (print_text entry_of).
Proof. apply gentle_still. intros w r w' (out & -> & _). apply write_ui. Qed.
Lemma gentle_command c : gentle (run_command entry_of lib sha512 c).
Proof. destruct c; cbn [run_command]; [apply gentle_crypt|apply gentle_generate|apply gentle_text|apply gentle_text]. Qed.

Variable files : text -> option bytes.
Theorem main_conversation args a b c w status w' : main entry_of lib sha512 files args a b c w status w' -> steady (w_ui w) (w_ui w').
Proof.
  intros (r & w1 & H & R). apply steady_trans with (w_ui w1).
  - revert H. apply gentle_bind; [apply gentle_ui, calm_command_line|]. intros x. apply gentle_command.
  - destruct r as [x|[]|]; destruct R as [_ ->]; try apply steady_refl; apply calm_error.
Qed.
Lemma main_begins args a b c w status w' : main entry_of lib sha512 files args a b c w status w' ->
  steady (snd (parse_command_line sha512 files args a b c (w_ui w))) (w_ui w').
Proof.
  intros (r & w1 & H & R). apply steady_trans with (w_ui w1).
  - destruct H as [(x & w2 & [_ ->] & H)|[(e & [_ ->] & _)|[[_ ->] _]]]; [|apply steady_refl..]. exact (gentle_command x _ _ _ H).
  - destruct r as [x|[]|]; destruct R as [_ ->]; try apply steady_refl; apply calm_error.
Qed.
End Commands.

(** ** Settings during a conversation *)
Lemma segment_restores s t : segment s -> shows t -> terminal_after (Some t) s = Some t.
Proof.
  intros H Ht. assert (K : forall mid, (forall e, In e mid -> match e with Echo _ => False | _ => True end) -> terminal_after (Some t) ([Echo false] ++ mid ++ [Echo true]) = Some t).
  { intros mid Hmid. destruct (after_same ([Echo false] ++ mid ++ [Echo true]) t) as (t' & E & S1). rewrite E. f_equal. apply same_shown; [exact S1|].
    rewrite app_assoc, after_app in E. destruct (after_same ([Echo false] ++ mid) t) as (t1 & E1 & _). rewrite E1 in E. cbn [terminal_after fold_left] in E.
    destruct (switch_same true t1) as (t2 & E2 & _ & B). rewrite E2 in E. injection E as ->. unfold shows in Ht. congruence. }
  destruct H as [m|p l _|p l _|p|]; try reflexivity.
  - apply (K [Printed (MPrompt p); Typed l]). intros e [<-|[<-|[]]]; exact I.
  - apply (K [Printed (MPrompt p)]). intros e [<-|[]]; exact I.
  - apply (K []). intros e [].
Qed.
Lemma conversation_restores tr t : conversation tr -> shows t -> terminal_after (Some t) tr = Some t.
Proof. intros H Ht. induction H as [|s tr Hs _ IH]; [reflexivity|]. rewrite after_app, segment_restores; auto. Qed.
(** Where a reply is in a conversation. *)
Lemma typed_where tr : conversation tr -> forall a l b, tr = a ++ Typed l :: b ->
  exists c p, conversation c /\
    ((a = c ++ [Printed (MPrompt p)] /\ p = lit "Remove original file(s)? [y/N]: ") \/ (a = c ++ [Echo false; Printed (MPrompt p)] /\ password_prompt p)).
Proof.
  induction 1 as [|s tr Hs Hc IH]; intros a l b E; [destruct a; discriminate|].
  assert (K : (exists b', s = a ++ Typed l :: b') \/ exists a', a = s ++ a' /\ tr = a' ++ Typed l :: b).
  { clear -E. revert a E. induction s as [|e s IH]; intros [|e' a] E; cbn in E.
    - right. exists []. auto.
    - right. exists (e' :: a). auto.
    - left. injection E as <- <-. exists s. reflexivity.
    - injection E as <- E. destruct (IH a E) as [(b' & ->)|(a' & -> & E')]; [left; exists b'; reflexivity|right; exists a'; auto]. }
  destruct K as [(b' & ->)|(a' & -> & E')].
  - exists []. destruct (a) as [|e1 [|e2 [|e3 [|e4 a']]]]; inversion Hs; subst; try discriminate.
    + exists (lit "Remove original file(s)? [y/N]: "). split; [constructor|]. left. auto.
    + exists p. split; [constructor|]. right. auto.
    + destruct a'; discriminate.
  - destruct (IH a' l b E') as (c & p & Hcc & [[-> Hp]|[-> Hp]]); exists (s ++ c), p; (split; [constructor; assumption|]); [left|right]; (split; [apply app_assoc|exact Hp]).
Qed.
Lemma not_password p : password_prompt p -> p <> lit "Remove original file(s)? [y/N]: ".
Proof. intros [] E; discriminate E. Qed.

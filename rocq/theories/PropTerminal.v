(** C82: the settings of the terminal. *)
From Coq.Strings Require Import Byte String.
From Coq Require Import List NArith ZArith Bool.
From Verif Require Import Base Shamir Errors Io Text Util CliErrors Crypto HeaderCrypto CredSpec Getopts Ui Paths CliCreds Cli ToyCrypto FsSpec FsCases FsCases2 FlowSpec FlowCases PropFs2 Fs Commands Terminal TerminalSpec TerminalProofs.
Import ListNotations.
Local Open Scope N_scope.

(** At the end of every run, failing ones included, a terminal that showed what was typed has all its settings back; at
    every moment in between all settings but the echo are as they were; and without a terminal nothing happens. *)
Theorem C82_settings_are_restored : forall (entry_of : names) lib sha512 files args stdin_is_tty stdout_is_tty stderr_is_tty w status w',
  main entry_of lib sha512 files args stdin_is_tty stdout_is_tty stderr_is_tty w status w' ->
  exists tr, u_trace (w_ui w') = u_trace (w_ui w) ++ tr /\
    (forall t, shows t -> terminal_after (Some t) tr = Some t) /\
    (forall t now later, tr = now ++ later -> exists t', terminal_after (Some t) now = Some t' /\ same_settings t t') /\
    (forall now later, tr = now ++ later -> terminal_after None now = None).
Proof.
  intros e lib sha512 files args a b c w status w' H. destruct (main_conversation _ _ _ _ _ _ _ _ _ _ _ H) as (tr & E & C).
  exists tr. split; [exact E|]. split; [intros t; apply conversation_restores, C|]. split; [intros t now later _; apply after_same|intros now later _; apply after_none].
Qed.
Print Assumptions C82_settings_are_restored.

(** Every reply answers the prompt before it; replies to questions for passwords are not shown while they are typed, and
    all other replies are (on a terminal that showed what is typed at the start). *)
Theorem C82_passwords_are_hidden_and_answers_shown : forall (entry_of : names) lib sha512 files args stdin_is_tty stdout_is_tty stderr_is_tty w status w' tr,
  main entry_of lib sha512 files args stdin_is_tty stdout_is_tty stderr_is_tty w status w' ->
  u_trace (w_ui w') = u_trace (w_ui w) ++ tr ->
  forall before reply after t, tr = before ++ Typed reply :: after ->
  exists before' prompt now,
    before = before' ++ [Printed (MPrompt prompt)] /\ terminal_after (Some t) before = Some now /\
    (password_prompt prompt -> ~ shows now) /\
    (~ password_prompt prompt -> shows t -> shows now).
Proof.
  intros e lib sha512 files args a b c w status w' tr H Et before reply after t E. destruct (main_conversation _ _ _ _ _ _ _ _ _ _ _ H) as (tr' & E' & C).
  rewrite Et in E'. apply app_inv_head in E'. subst tr'.
  destruct (typed_where tr C _ _ _ E) as (cv & p & Cc & [[-> Hp]|[-> Hp]]).
  - destruct (after_same (cv ++ [Printed (MPrompt p)]) t) as (now & En & _). exists cv, p, now. split; [reflexivity|]. split; [exact En|]. split.
    + intros X. exfalso. exact (not_password p X Hp).
    + intros _ Ht. rewrite after_app, (conversation_restores _ _ Cc Ht) in En. injection En as <-. exact Ht.
  - destruct (after_same cv t) as (t1 & E1 & _). destruct (switch_same false t1) as (now & En & _ & B). exists (cv ++ [Echo false]), p, now.
    split; [rewrite <- app_assoc; reflexivity|]. split; [rewrite after_app, E1; exact En|]. split; [intros _ X; unfold shows in X; congruence|]. intros X. contradiction.
Qed.
Print Assumptions C82_passwords_are_hidden_and_answers_shown.

(** rypt notes, with the password a: the password dialogue. *)
Definition tty_ui : ui := mkUi (Some [RData [x61; x0a; x61; x0a]]) true true 0 true None [].
Definition tty_world : world := flow_world "notes" case_data "x" [] tty_ui.
Definition tty_dialogue : list event :=
  [Echo false; Printed (MPrompt (lit "Enter password: ")); Typed [97]; Echo true; Printed (MLine []);
   Echo false; Printed (MPrompt (lit "Confirm password: ")); Typed [97]; Echo true; Printed (MLine []); Printed (MLine [])].
Lemma tty_run : exists status w' tr, main flow_names toy_lib case_digest (files_in flow_names (w_fs tty_world)) [lit "notes"] true true true tty_world status w' /\
  u_trace (w_ui w') = tty_dialogue ++ tr /\ conversation tr.
Proof.
  destruct (C56_every_run_ends flow_names toy_lib case_digest (files_in flow_names (w_fs tty_world)) [lit "notes"] true true true tty_world toy_lib_ok (flow_spacious _ _ _ _)) as (status & w' & H).
  assert (T : u_trace (snd (parse_command_line case_digest (files_in flow_names (w_fs tty_world)) [lit "notes"] true true true (w_ui tty_world))) = tty_dialogue) by (vm_compute; reflexivity).
  destruct (main_begins _ _ _ _ _ _ _ _ _ _ _ H) as (tr & E & C). rewrite T in E. exists status, w', tr. exact (conj H (conj E C)).
Qed.

(** A terminal that did not show what is typed shows it after a question for a password. *)
Theorem C82_settings_are_restored_refuted : exists (entry_of : names) lib sha512 files args w status w' tr t,
  main entry_of lib sha512 files args true true true w status w' /\ u_trace (w_ui w') = u_trace (w_ui w) ++ tr /\
  terminal_after (Some t) tr <> Some t.
Proof.
  destruct tty_run as (status & w' & tr & H & E & C). exists flow_names, toy_lib, case_digest, (files_in flow_names (w_fs tty_world)), [lit "notes"], tty_world, status, w', (tty_dialogue ++ tr), zeroed.
  split; [exact H|]. split; [exact E|]. rewrite after_app. change (terminal_after (Some zeroed) tty_dialogue) with (Some (mkTermios 0 0 0 8 0 (repeat 0 32) 0 0)).
  rewrite (conversation_restores tr (mkTermios 0 0 0 8 0 (repeat 0 32) 0 0) C eq_refl). discriminate.
Qed.
Print Assumptions C82_settings_are_restored_refuted.

(** The settings of a usual terminal; while the password is typed, 0x8a3b has become 0x8a33. *)
Definition usual : termios := mkTermios 17664 5 191 35387 0 [3; 28; 127; 21; 4; 0; 1; 0; 17; 19; 26; 255; 18; 15; 23; 22; 255] 15 15.
Example C82_case : exists status w' tr now,
  main flow_names toy_lib case_digest (files_in flow_names (w_fs tty_world)) [lit "notes"] true true true tty_world status w' /\
  u_trace (w_ui w') = u_trace (w_ui tty_world) ++ tr /\ shows usual /\ terminal_after (Some usual) tr = Some usual /\
  terminal_after (Some usual) (firstn 2 tr) = Some now /\ c_lflag usual = 35387 /\ c_lflag now = 35379 /\ ~ shows now.
Proof.
  destruct tty_run as (status & w' & tr & H & E & C). exists status, w', (tty_dialogue ++ tr), (mkTermios 17664 5 191 35379 0 [3; 28; 127; 21; 4; 0; 1; 0; 17; 19; 26; 255; 18; 15; 23; 22; 255] 15 15).
  split; [exact H|]. split; [exact E|]. split; [reflexivity|]. split.
  - rewrite after_app. change (terminal_after (Some usual) tty_dialogue) with (Some usual). apply conversation_restores; [exact C|reflexivity].
  - split; [reflexivity|]. split; [reflexivity|]. split; [reflexivity|]. discriminate.
Qed.

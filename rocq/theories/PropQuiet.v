(** C75: how much appears on the terminal.  [quietness] counts the options -q less the options -v, [quiet] allows only
    errors and, if there are terminals to type at and to write to, asking for passwords (QuietSpec). *)
From Coq.Strings Require Import Byte String.
From Coq Require Import List NArith ZArith Bool PeanoNat Lia.
From Verif Require Import Base Io Text Util CliErrors Getopts Crypto HeaderCrypto CredSpec KeyFiles Ui UiSpec CliCreds Paths Cli Fs Commands ToyCrypto FsSpec FsCases FsCases2 PathSpec OptSpec OptProofs CmdSpec QuietSpec QuietProofs3 PropFs2.
Import ListNotations.
Local Open Scope N_scope.

(** With -qq (and no -v) nothing at all appears, whatever happens: no messages, no errors, no questions. *)
Theorem C75_very_quiet : forall (entry_of : names) lib sha512 files args stdin_is_tty stdout_is_tty stderr_is_tty w status w' occs free,
  means 0 args occs free -> (forall o, only_once o -> (times o occs <= 1)%nat) -> quietness occs = 2%Z ->
  main entry_of lib sha512 files args stdin_is_tty stdout_is_tty stderr_is_tty w status w' ->
  u_trace (w_ui w') = u_trace (w_ui w).
Proof. exact main_silent. Qed.
Print Assumptions C75_very_quiet.

(** With -q only errors and the questions for passwords appear; the latter only at a terminal. *)
Theorem C75_quiet : forall (entry_of : names) lib sha512 files args stdin_is_tty stdout_is_tty stderr_is_tty w status w' occs free,
  means 0 args occs free -> (forall o, only_once o -> (times o occs <= 1)%nat) -> quietness occs = 1%Z ->
  main entry_of lib sha512 files args stdin_is_tty stdout_is_tty stderr_is_tty w status w' ->
  exists tr, u_trace (w_ui w') = u_trace (w_ui w) ++ tr /\ quiet (u_input_is_tty (w_ui w) && u_output_is_tty (w_ui w)) tr.
Proof. exact main_quiet. Qed.
Print Assumptions C75_quiet.

(** The same without -q and -v in scripts: if standard error is not a terminal, or if files are converted to files and
    standard input or output is not a terminal.  The exception is making keys. *)
Theorem C75_quiet_in_scripts : forall (entry_of : names) lib sha512 files args stdin_is_tty stdout_is_tty stderr_is_tty w status w' occs free,
  means 0 args occs free -> (forall o, only_once o -> (times o occs <= 1)%nat) -> quietness occs = 0%Z -> ~ given OGenKeypair occs ->
  stderr_is_tty = false \/ (~ to_stdout occs free /\ (stdin_is_tty = false \/ stdout_is_tty = false)) ->
  main entry_of lib sha512 files args stdin_is_tty stdout_is_tty stderr_is_tty w status w' ->
  exists tr, u_trace (w_ui w') = u_trace (w_ui w) ++ tr /\ quiet (u_input_is_tty (w_ui w) && u_output_is_tty (w_ui w)) tr.
Proof. exact main_in_scripts. Qed.
Print Assumptions C75_quiet_in_scripts.

(** A run that fails says why, unless it was told with -qq to be silent, or standard error cannot be written. *)
Theorem C75_failures_are_explained : forall (entry_of : names) lib sha512 files args stdin_is_tty stdout_is_tty stderr_is_tty w w',
  u_verbosity (w_ui w) = 0%Z -> u_room (w_ui w) = None ->
  (forall occs free, means 0 args occs free -> quietness occs <> 2%Z) ->
  main entry_of lib sha512 files args stdin_is_tty stdout_is_tty stderr_is_tty w 1 w' ->
  exists tr, u_trace (w_ui w') = u_trace (w_ui w) ++ tr /\ exists e, In (Printed (MError e)) tr.
Proof. exact main_complains. Qed.
Print Assumptions C75_failures_are_explained.

(** rypt -qqd notes.rypt; rypt -q -d notes.rypt; rypt -d notes.rypt *)
Example C75_silent_case : exists status w', main (case_names false false) toy_lib case_digest case_secrets (map lit ["-qqd"; "notes.rypt"]%string) false false false case_start status w' /\
  u_trace (w_ui w') = [].
Proof.
  destruct (C56_every_run_ends (case_names false false) toy_lib case_digest case_secrets (map lit ["-qqd"; "notes.rypt"]%string) false false false case_start toy_lib_ok case_spacious) as (status & w' & H).
  exists status, w'. split; [exact H|]. destruct (parse_options (map lit ["-qqd"; "notes.rypt"]%string)) as [m| |] eqn:P; try discriminate P.
  destruct (proj1 (options_read _ _) P) as [M O]. refine (C75_very_quiet _ _ _ _ _ _ _ _ case_start status w' _ _ M O _ H). vm_compute in P. injection P as <-. reflexivity.
Qed.
Example C75_quiet_case : exists m, means 0 (map lit ["-q"; "-d"; "notes.rypt"]%string) (m_occs m) (m_free m) /\
  (forall o, only_once o -> (times o (m_occs m) <= 1)%nat) /\ quietness (m_occs m) = 1%Z /\
  exists status w', main (case_names false false) toy_lib case_digest case_secrets (map lit ["-q"; "-d"; "notes.rypt"]%string) false false false case_start status w'.
Proof.
  destruct (parse_options (map lit ["-q"; "-d"; "notes.rypt"]%string)) as [m| |] eqn:P; try discriminate P. exists m.
  destruct (proj1 (options_read _ _) P) as [M O]. split; [exact M|]. split; [exact O|]. split; [vm_compute in P; injection P as <-; reflexivity|].
  exact (C56_every_run_ends (case_names false false) toy_lib case_digest case_secrets (map lit ["-q"; "-d"; "notes.rypt"]%string) false false false case_start toy_lib_ok case_spacious).
Qed.
(** Without a terminal there is no way to ask for the password, and the program says so. *)
Example C75_script_case : exists m w', means 0 (map lit ["-d"; "notes.rypt"]%string) (m_occs m) (m_free m) /\
  (forall o, only_once o -> (times o (m_occs m) <= 1)%nat) /\ quietness (m_occs m) = 0%Z /\ ~ given OGenKeypair (m_occs m) /\
  u_verbosity (w_ui case_start) = 0%Z /\ u_room (w_ui case_start) = None /\
  main (case_names false false) toy_lib case_digest case_secrets (map lit ["-d"; "notes.rypt"]%string) false false false case_start 1 w' /\
  u_trace (w_ui w') = [Printed (MError CCannotPrompt)].
Proof.
  destruct (parse_options (map lit ["-d"; "notes.rypt"]%string)) as [m| |] eqn:P; try discriminate P.
  assert (L : parse_command_line case_digest case_secrets (map lit ["-d"; "notes.rypt"]%string) false false false (w_ui case_start) =
    (Err CCannotPrompt, mkUi (Some []) false false (-1) false None [])) by (vm_compute; reflexivity).
  exists m, (set_ui (set_ui case_start (mkUi (Some []) false false (-1) false None [])) (snd (print_error CCannotPrompt (mkUi (Some []) false false (-1) false None [])))).
  destruct (proj1 (options_read _ _) P) as [M O]. split; [exact M|]. split; [exact O|]. vm_compute in P. injection P as <-.
  split; [reflexivity|]. split; [intros (x & [<-|[]] & X); discriminate X|]. split; [reflexivity|]. split; [reflexivity|]. split.
  - exists (Err CCannotPrompt), (set_ui case_start (mkUi (Some []) false false (-1) false None [])). split; [|split; reflexivity]. right. left. exists CCannotPrompt. split; [|reflexivity].
    split; [rewrite L; reflexivity|]. rewrite L. cbn [snd]. reflexivity.
  - vm_compute. reflexivity.
Qed.

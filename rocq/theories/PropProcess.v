(** C86: standard input, standard output, arguments and environment of the process.

    Vocabulary (ProcessSpec): [decided] what the last mode option asks for, [names_stdin] no file or a dash is named,
    [encodes_text], [set_to_text].  [means] (OptSpec) is the documented syntax of the command line, [given] (CmdSpec) that
    an option occurs.  An [invocation] (Process) has the arguments, the variables, and which streams are terminals. *)
From Coq.Strings Require Import Byte String.
From Coq Require Import List NArith ZArith Bool PeanoNat Lia.
From Verif Require Import Base BaseFacts Shamir Errors Io HeaderIo HeaderIoSpec StreamSpec Text Util CliErrors TextProofs Getopts Crypto HeaderCrypto CredSpec FileCrypto KeyFiles Ui UiSpec Paths PathSpec CliCreds Cli CliSpec OptSpec OptProofs CmdSpec Fs Commands FsSpec
  FsProofs12 ToyCrypto FsCases FsCases2 FlowSpec FlowProofs FlowProofs2 FlowProofs3 FlowProofs4 FlowCases PipeSpec PipeProofs PipeProofs2 PipeProofs3 PropFs2 PropFlow PropPipe Process ProcessSpec ProcessProofs QuietSpec PropQuiet.
Import ListNotations.
Local Open Scope N_scope.

(** Bytes appear on standard output only in five cases: help and version are asked for, or nothing at all; a private key is
    asked for there; or data is converted there.  Encrypted data goes to a terminal only by force, whatever the
    environment. *)
Theorem C86_when_standard_output_is_written : forall entry_of lib sha512 files p f stdin room status w',
  run_process entry_of lib sha512 files p f stdin room status w' -> w_stdout w' <> [] ->
  exists args occs free, p_args p = map utf8 args /\ means 0 args occs free /\
    (decided occs MHelp \/ decided occs MVersion \/ args = [] \/
     (decided occs MGenerateKeypair /\ In (lit "-") free) \/
     (exists d, decided occs (MCrypt d) /\ (given OStream occs \/ names_stdin free) /\
        (p_stdout_terminal p = true -> d = Decrypt \/ given OForce occs))).
Proof.
  intros entry_of lib sha512 files p f stdin room status w' H N. unfold run_process in H. destruct (to_texts (p_args p)) as [args|e|] eqn:E.
  - apply to_texts_ok in E as [_ E]. destruct (when_written _ _ _ _ _ _ _ _ _ _ _ H N) as (occs & free & M & K). exists args, occs, free. split; [auto|]. split; [exact M|].
    destruct K as [K|[K|[[K _]|[K|(d & A & B & C)]]]]; [tauto..|]. do 4 right. exists d. split; [exact A|]. split; [exact B|]. intros T. apply C. unfold stdout_is_tty. rewrite T. reflexivity.
  - destruct H as [_ ->]. destruct N. reflexivity.
  - destruct H.
Qed.
Print Assumptions C86_when_standard_output_is_written.

(** Standard input is read as data only if no file is named, or a dash; and encrypted data is read from a terminal only by
    force.  ([None] says that the dialogue with the user has lost its input.) *)
Theorem C86_when_standard_input_is_data : forall entry_of lib sha512 files p f stdin room status w',
  run_process entry_of lib sha512 files p f stdin room status w' -> u_input (w_ui w') = None ->
  exists args occs free d, p_args p = map utf8 args /\ means 0 args occs free /\ decided occs (MCrypt d) /\ names_stdin free /\
    (p_stdin_terminal p = true -> d = Encrypt \/ given OForce occs).
Proof.
  intros entry_of lib sha512 files p f stdin room status w' H N. unfold run_process in H. destruct (to_texts (p_args p)) as [args|e|] eqn:E.
  - apply to_texts_ok in E as [_ E]. destruct (when_read _ _ _ _ _ _ _ _ _ _ _ H) as (occs & free & d & M & D & G & K); [discriminate|exact N|].
    exists args, occs, free, d. split; [auto|]. do 3 (split; [assumption|]). intros T. apply K. unfold stdin_is_tty. rewrite T. reflexivity.
  - destruct H as [_ ->]. cbn [set_ui w_ui] in N. revert N. unfold print_error, emit. destruct (will_print _ _); [|discriminate]. destruct (u_room _) as [[]|]; discriminate.
  - destruct H.
Qed.
Print Assumptions C86_when_standard_input_is_data.

(** With an argument that is not text the program fails with an error and does nothing: no file is touched, nothing is
    written to standard output or read from standard input. *)
Theorem C86_arguments_must_be_text : forall entry_of lib sha512 files p f stdin room status w',
  (exists a, In a (p_args p) /\ ~ encodes_text a) -> run_process entry_of lib sha512 files p f stdin room status w' ->
  status = 1 /\ w_fs w' = f /\ w_past w' = [] /\ w_stdout w' = [] /\ u_input (w_ui w') = Some stdin /\
  u_trace (w_ui w') = match room with Some O => [] | _ => [Printed (MError CUnrecognizedOption)] end.
Proof.
  intros entry_of lib sha512 files p f stdin room status w' N H. apply to_texts_err in N. unfold run_process in H. rewrite N in H. destruct H as [-> ->].
  do 4 (split; [reflexivity|]). destruct room as [[|n]|]; split; reflexivity.
Qed.
Print Assumptions C86_arguments_must_be_text.

(** Other processes are a run of the program with the texts as arguments, and so everything that is proved about these runs
    holds for the process. *)
Theorem C86_processes_are_runs : forall entry_of lib sha512 files args vars tin tout terr f stdin room status w',
  Forall (Forall scalar) args ->
  let p := mkInvocation (map utf8 args) vars tin tout terr in
  (run_process entry_of lib sha512 files p f stdin room status w' <->
   main entry_of lib sha512 files args (stdin_is_tty p) (stdout_is_tty p) (stderr_is_tty p) (at_start p f stdin room) status w').
Proof.
  intros entry_of lib sha512 files args vars tin tout terr f stdin room status w' F p. unfold run_process, p. cbn [p_args].
  rewrite (proj2 (to_texts_ok _ args)) by auto. reflexivity.
Qed.
Print Assumptions C86_processes_are_runs.

(** Of the environment only three variables matter, and of those only whether they are set to a text: then the program
    takes the stream for a terminal. *)
Theorem C86_only_three_variables_matter : forall entry_of lib sha512 files p q f stdin room status w',
  p_args p = p_args q ->
  (p_stdin_terminal p = true \/ set_to_text p "RYPT_STDIN_TTY_OVERRIDE" <-> p_stdin_terminal q = true \/ set_to_text q "RYPT_STDIN_TTY_OVERRIDE") ->
  (p_stdout_terminal p = true \/ set_to_text p "RYPT_STDOUT_TTY_OVERRIDE" <-> p_stdout_terminal q = true \/ set_to_text q "RYPT_STDOUT_TTY_OVERRIDE") ->
  (p_stderr_terminal p = true \/ set_to_text p "RYPT_STDERR_TTY_OVERRIDE" <-> p_stderr_terminal q = true \/ set_to_text q "RYPT_STDERR_TTY_OVERRIDE") ->
  run_process entry_of lib sha512 files p f stdin room status w' -> run_process entry_of lib sha512 files q f stdin room status w'.
Proof.
  intros entry_of lib sha512 files p q f stdin room status w' Ea E1 E2 E3 H. rewrite <- !var_text in E1, E2, E3. apply tty_eq in E1, E2, E3.
  fold (stdin_is_tty p) (stdin_is_tty q) in E1. fold (stdout_is_tty p) (stdout_is_tty q) in E2. fold (stderr_is_tty p) (stderr_is_tty q) in E3.
  unfold run_process in *. rewrite <- Ea. unfold at_start, new_ui in *. rewrite <- E1, <- E2, <- E3. exact H.
Qed.
Print Assumptions C86_only_three_variables_matter.

(** The terminal for questions is standard input together with standard error, not standard output.  A process with -q at
    which one of them is no terminal, and one without -q and -v at which standard error is none, shows errors only. *)
Theorem C86_questions_need_terminals : forall entry_of lib sha512 files args vars tin tout terr f stdin room status w' occs free,
  Forall (Forall scalar) args -> means 0 args occs free -> (forall o, only_once o -> (times o occs <= 1)%nat) ->
  let p := mkInvocation (map utf8 args) vars tin tout terr in
  let types := tin = true \/ set_to_text p "RYPT_STDIN_TTY_OVERRIDE" in
  let sees := terr = true \/ set_to_text p "RYPT_STDERR_TTY_OVERRIDE" in
  quietness occs = 1%Z /\ ~ (types /\ sees) \/ quietness occs = 0%Z /\ ~ given OGenKeypair occs /\ ~ sees ->
  run_process entry_of lib sha512 files p f stdin room status w' -> Forall error_event (u_trace (w_ui w')).
Proof.
  intros entry_of lib sha512 files args vars tin tout terr f stdin room status w' occs free F R O p types sees Q H.
  apply (proj1 (C86_processes_are_runs _ _ _ _ _ _ _ _ _ _ _ _ _ _ F)) in H. fold p in H.
  assert (T1 : stdin_is_tty p = true <-> types) by (unfold types, stdin_is_tty; rewrite <- var_text; apply orb_true_iff).
  assert (T2 : stderr_is_tty p = true <-> sees) by (unfold sees, stderr_is_tty; rewrite <- var_text; apply orb_true_iff).
  assert (K : forall tr, stdin_is_tty p && stderr_is_tty p = false -> quiet (stdin_is_tty p && stderr_is_tty p) tr -> Forall error_event tr).
  { intros tr -> Hq. refine (Forall_impl _ _ Hq). intros e [X|[X _]]; [exact X|discriminate X]. }
  destruct Q as [[Q N]|(Q & G & N)].
  - destruct (C75_quiet _ _ _ _ _ _ _ _ _ _ _ _ _ R O Q H) as (tr & -> & Hq). apply (K tr); [|exact Hq].
    destruct (stdin_is_tty p && stderr_is_tty p) eqn:E; [|reflexivity]. apply andb_true_iff in E as [E1 E2]. destruct N. split; [apply T1, E1|apply T2, E2].
  - assert (E : stderr_is_tty p = false) by (destruct (stderr_is_tty p); [destruct N; apply T2; reflexivity|reflexivity]).
    destruct (C75_quiet_in_scripts _ _ _ _ _ _ _ _ _ _ _ _ _ R O Q G (or_introl E) H) as (tr & -> & Hq). apply (K tr); [|exact Hq]. rewrite E. apply andb_false_r.
Qed.
Print Assumptions C86_questions_need_terminals.

(** rypt -q -d notes.rypt at a terminal, with standard error in a file *)
Example C86_questions_case : exists m, let args := map lit ["-q"; "-d"; "notes.rypt"]%string in
  let p := mkInvocation (map utf8 args) (fun _ => None) true true false in
  Forall (Forall scalar) args /\ means 0 args (m_occs m) (m_free m) /\ (forall o, only_once o -> (times o (m_occs m) <= 1)%nat) /\
  quietness (m_occs m) = 1%Z /\ ~ (false = true \/ set_to_text p "RYPT_STDERR_TTY_OVERRIDE") /\
  exists status w', run_process (case_names false false) toy_lib case_digest case_secrets p case_fs [] None status w'.
Proof.
  set (args := map lit ["-q"; "-d"; "notes.rypt"]%string). destruct (parse_options args) as [m| |] eqn:P; try discriminate P. exists m. cbv zeta.
  destruct (proj1 (options_read _ _) P) as [M O]. assert (F : Forall (Forall scalar) args) by (repeat (constructor; [repeat (constructor; [left; reflexivity|]); constructor|]); constructor).
  split; [exact F|]. split; [exact M|]. split; [exact O|]. split; [vm_compute in P; injection P as <-; reflexivity|].
  split; [intros [X|(v & X & _)]; discriminate X|].
  destruct (C56_every_run_ends (case_names false false) toy_lib case_digest case_secrets args true true false (at_start (mkInvocation (map utf8 args) (fun _ => None) true true false) case_fs [] None) toy_lib_ok case_spacious) as (status & w' & H).
  exists status, w'. apply (proj2 (C86_processes_are_runs _ _ _ _ _ _ _ _ _ _ _ _ _ _ F)). exact H.
Qed.

(** ** Cases *)

(** rypt --public-key me.pub < data > encrypted, with all terminals pretended but that of the standard output. *)
Definition case_process : invocation := mkInvocation (map utf8 (map lit ["--public-key"; "me.pub"]%string))
  (fun name => if text_eqb name (lit "RYPT_STDOUT_TTY_OVERRIDE") then Some [xff] else Some [x31]) false false false.
Example C86_case : exists f w', run_process flow_names toy_lib case_digest (files_in flow_names f) case_process f [RData case_data] None 0 w' /\
  w_stdout w' <> [] /\ u_input (w_ui w') = None /\ ~ set_to_text case_process "RYPT_STDOUT_TTY_OVERRIDE" /\ set_to_text case_process "RYPT_STDIN_TTY_OVERRIDE".
Proof.
  destruct C74_key_pairs_case as (w' & public & private & _ & _ & _ & S0 & _ & Fk & _ & Cp & Cs & _).
  set (v := flow_world "me.pub" public "x" [] (new_ui case_process [RData case_data] None)). exists (w_fs v).
  assert (Ov : in_order flow_names v) by (apply flow_in_order; reflexivity).
  pose proof (plain_files_in _ _ _ _ (flow_at "me.pub" (w_fs v) public eq_refl (flow_first _ _ _ _))) as Fp.
  assert (Nk : lit "me" <> lit "-") by discriminate.
  destruct (C56_every_run_ends flow_names toy_lib case_digest (files_in flow_names (w_fs v)) [lit "--public-key"; lit "me.pub"] true false true v toy_lib_ok (flow_spacious _ _ _ _)) as (s1 & v' & H1).
  assert (s1 = 0) as ->.
  { exact (C80_encryption_for_a_key_succeeds flow_names toy_lib case_digest _ _ _ case_start w' (lit "me") [] (lit "me") (lit "me.pub") flow_names v (lit "me.pub") [RData case_data] true true s1 v'
      toy_lib_ok flow_digest S0 flow_asks_keys (or_introl eq_refl) Nk Fk flow_me Ov (eq_trans Fp (eq_sym Cp)) eq_refl eq_refl H1). }
  set (o1 := [mkOcc 0 OPublicKey (Some (lit "me.pub"))]).
  assert (Sm : given OFast o1 -> forall c c', toy_lib ChaCha20Poly1305Ietf = Some c -> toy_lib AES256GCM = Some c' -> forall seed, cs_keypair c seed = cs_keypair c' seed) by (intros X; exfalso; revert X; no_option).
  assert (A1 : asks_to_encrypt o1) by ask.
  assert (K1 : only_key OPublicKey (lit "me.pub") o1) by (exists [], 0%nat, []; split; [reflexivity|intros y []]).
  assert (Su1 : supplied flow_names (w_fs v) [RData case_data] [] case_data) by (left; split; [left; reflexivity|symmetry; apply app_nil_r]).
  assert (F1 : filters flow_names toy_lib case_digest [lit "--public-key"; lit "me.pub"] o1 [] v v').
  { split; [apply options_mean, parse_public|]. split; [right; left; reflexivity|]. exists true, false, true. split; [intros [E _]; discriminate E|exact H1]. }
  destruct (C80_key_pairs_through_pipes flow_names flow_names flow_names toy_lib case_digest _ _ _ case_start w' (lit "me") [] (lit "me") (lit "me.pub") _ _ _ v v' (lit "me.pub") [RData case_data] case_data
    toy_lib_ok flow_digest Sm S0 flow_asks_keys (or_introl eq_refl) Nk Fk flow_me F1 A1 K1 (eq_trans Fp (eq_sym Cp)) eq_refl Su1) as (cf & Eo & Lc & _).
  assert (Ll : lenN cf = lenN case_data + 184) by (apply Lc; vm_compute; discriminate).
  assert (No : w_stdout v' <> []) by (rewrite Eo; change (w_stdout v) with (@nil byte); cbn [app]; intros E; rewrite E in Ll; change (lenN []) with 0 in Ll; lia).
  assert (Ni : u_input (w_ui v') = None).
  { refine (filter_takes _ _ _ _ _ _ _ _ _ _ _ Encrypt H1 (parse_public _) _ _ _); [left; reflexivity|reflexivity|discriminate]. }
  exists v'. split; [exact H1|]. split; [exact No|]. split; [exact Ni|]. split.
  - intros T. apply var_text in T. discriminate T.
  - exists [x31]. split; [reflexivity|]. exists [49]. split; [|reflexivity]. constructor; [left; reflexivity|constructor].
Qed.
(** A name that is not text. *)
Example C86_bad_argument_case : exists a, In a (p_args (mkInvocation [utf8 (lit "-d"); [x61; xff]] (fun _ => None) true true true)) /\ ~ encodes_text a.
Proof.
  exists [x61; xff]. split; [right; left; reflexivity|]. intros (t & S & E). pose proof (from_utf8_utf8 t S) as K. rewrite <- E in K. discriminate K.
Qed.

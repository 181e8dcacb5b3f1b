(** C89: asking for help or for the version has no other effect.

    Vocabulary: [means] (OptSpec) is the documented syntax of the command line, [times] counts an option; [decided]
    (ProcessSpec) says what the last mode option asks for.  [faulty] is a machine whose operating system may fail. *)
From Coq.Strings Require Import Byte String.
From Coq Require Import List NArith ZArith Bool PeanoNat Lia.
From Verif Require Import Base Io Text Util CliErrors Getopts Crypto HeaderCrypto KeyFiles Ui Paths CliCreds Cli PathSpec OptSpec OptProofs CmdSpec CmdProofs Fs Commands ProcessSpec ProcessProofs ToyCrypto FsCases FsCases2.
Import ListNotations.
Local Open Scope N_scope.

(** Whatever else the command line says, provided that it can be read, nothing but standard output is touched: no file is
    opened, no question is asked, no input is read, no password or key is needed.  On a machine that works it succeeds. *)
Theorem C89_help_and_version_do_nothing_else :
  forall entry_of lib sha512 files args stdin_is_tty stdout_is_tty stderr_is_tty occs free w status w',
    means 0 args occs free -> (forall o, only_once o -> (times o occs <= 1)%nat) ->
    (times OVerbose occs <= times OQuiet occs + 2)%nat -> (times OQuiet occs <= times OVerbose occs + 2)%nat ->
    (forall mode, decided occs mode -> mode = MHelp \/ mode = MVersion) \/ (args = [] /\ stdout_is_tty = true) ->
    main entry_of lib sha512 files args stdin_is_tty stdout_is_tty stderr_is_tty w status w' ->
    w_fs w' = w_fs w /\ w_past w' = w_past w /\ w_refused w' = w_refused w /\ u_input (w_ui w') = u_input (w_ui w) /\
    ((status = 0 /\ u_trace (w_ui w') = u_trace (w_ui w)) \/
     (status = 1 /\ faulty entry_of = true /\ (u_trace (w_ui w') = u_trace (w_ui w) \/ u_trace (w_ui w') = u_trace (w_ui w) ++ [Printed (MError CIo)]))).
Proof.
  intros entry_of lib sha512 files args ti to te occs free w status w' R O V1 V2 D (r & w1 & H & K).
  assert (P : exists c u, parse_command_line sha512 files args ti to te (w_ui w) = (Ok c, u) /\ (c = Help \/ c = Version) /\
    exists v, u = set_verbosity (w_ui w) v).
  { unfold parse_command_line. rewrite (proj2 (options_read args (mkMatches occs free)) (conj R O)).
    unfold lift, bind_act, ensure_act. cbn [fst snd].
    replace (_ && _)%bool with true.
    2: { symmetry. rewrite !times_count in *. apply andb_true_intro. split; apply Z.leb_le; lia. }
    cbv zeta. destruct D as [D|[-> ->]].
    - pose proof (D _ (mode_decided (mkMatches occs free))) as G.
      destruct ((match args with [] => true | _ => false end) && to); [eexists _, _; split; [reflexivity|]; split; [left; reflexivity|eauto]|].
      destruct G as [-> | ->]; eexists _, _; (split; [reflexivity|]); (split; [auto|eauto]).
    - cbn [andb]. eexists _, _; split; [reflexivity|]; split; [left; reflexivity|eauto]. }
  destruct P as (c & u & P & C & v & ->).
  assert (H' : print_text entry_of (set_ui w (set_verbosity (w_ui w) v)) r w1).
  { destruct H as [(c' & w2 & [E ->] & H)|[(e & [E _] & _)|[[E _] _]]]; rewrite P in *; cbn [fst snd] in *; [|discriminate E..].
    injection E as <-. destruct C as [-> | ->]; exact H. }
  clear H. destruct H' as (out & -> & [->|[F ->]]).
  - destruct K as [-> ->]. repeat split. left. auto.
  - destruct K as [-> ->]. cbn [write_out set_ui w_fs w_past w_refused w_ui].
    assert (A : forall e u0, u_input (snd (print_error e u0)) = u_input u0 /\
      (u_trace (snd (print_error e u0)) = u_trace u0 \/ u_trace (snd (print_error e u0)) = u_trace u0 ++ [Printed (MError e)])).
    { intros e u0. unfold print_error, emit. destruct (will_print _ _); [|auto]. destruct (u_room _) as [[]|]; cbn; auto. }
    destruct (A CIo (set_verbosity (w_ui w) v)) as [A1 A2]. repeat split; [exact A1|]. right. split; [reflexivity|]. split; [exact F|]. exact A2.
Qed.
Print Assumptions C89_help_and_version_do_nothing_else.

(** rypt --decrypt --suffix "" missing-file -hq *)
Definition help_command : list text := map lit ["--decrypt"; "--suffix"; ""; "missing-file"; "-hq"]%string.
Example C89_case : exists occs free, means 0 help_command occs free /\ (forall o, only_once o -> (times o occs <= 1)%nat) /\
  (times OVerbose occs <= times OQuiet occs + 2)%nat /\ (times OQuiet occs <= times OVerbose occs + 2)%nat /\
  (forall mode, decided occs mode -> mode = MHelp \/ mode = MVersion) /\
  main (case_names false false) toy_lib case_digest case_secrets help_command false false false case_start 0
    (set_ui case_start (set_verbosity (w_ui case_start) (-1))).
Proof.
  destruct (parse_options help_command) as [m| |] eqn:P; try discriminate P. destruct (proj1 (options_read _ _) P) as [M O].
  exists (m_occs m), (m_free m). split; [exact M|]. split; [exact O|]. vm_compute in P. injection P as <-.
  split; [vm_compute; lia|]. split; [vm_compute; lia|]. split.
  - cbn [m_occs]. intros mode [[-> D]|(x & I & E & L)].
    + exfalso. specialize (D _ (or_introl eq_refl)). discriminate D.
    + cbn [In] in I. repeat (destruct I as [<-|I]); try destruct I; cbn in E; try discriminate E; injection E as <-; auto.
      exfalso. specialize (L (mkOcc 3 OHelp None)). cbn in L. assert (3 <= 0)%nat; [apply L|lia]; [tauto|discriminate].
  - exists (Ok tt). eexists. split; [|split; reflexivity]. left. exists Help, (set_ui case_start (set_verbosity (w_ui case_start) (-1))).
    split; [split; vm_compute; reflexivity|]. exists []. split; [reflexivity|left; reflexivity].
Qed.

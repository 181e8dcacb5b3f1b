(** C70: what appears on the terminal.  [shown] (ShowSpec) lists every message that may appear; [means] (OptSpec) is the
    documented syntax of the command line. *)
From Coq.Strings Require Import Byte String.
From Coq Require Import List NArith ZArith Bool PeanoNat Lia.
From Verif Require Import Base Io Text Util CliErrors Getopts Crypto HeaderCrypto KeyFiles Ui UiSpec CliCreds Paths Cli Fs Commands ToyCrypto FsSpec FsCases FsCases2 PathSpec OptSpec CmdSpec ShowSpec ShowProofs ShowProofs2.
Import ListNotations.
Local Open Scope N_scope.

(** Whatever the program is asked to do and however it ends, the terminal shows only errors, progress, the names of files
    and passwords given on the command line, public keys, and fixed texts: no private key, no password, nothing of the
    files.  What the user types is not visible, except for the answer to the question about the originals; and in the
    end the terminal echoes again. *)
Theorem C70_terminal_shows_no_secrets : forall (entry_of : names) lib sha512 files args stdin_is_tty stdout_is_tty stderr_is_tty w status w',
  main entry_of lib sha512 files args stdin_is_tty stdout_is_tty stderr_is_tty w status w' ->
  exists tr, u_trace (w_ui w') = u_trace (w_ui w) ++ tr /\ echo_at_end true tr = true /\ typed_unseen tr /\
    forall m, In m (printed tr) ->
      (exists e, m = MError e /\ harmless e) \/ exists occs free, means 0 args occs free /\ shown sha512 lib occs free m.
Proof. exact main_shows. Qed.
Print Assumptions C70_terminal_shows_no_secrets.

(** A single character of a file is shown when the file is given as a key by mistake: here, of the file pw with passwords. *)
Theorem C70_character_of_a_secret_refuted : exists (entry_of : names) lib sha512 files args w w' secret,
  files (lit "pw") = Some (utf8 (secret ++ [10])) /\ args = map lit ["-d"; "--symmetric-key"; "pw"; "notes.rypt"]%string /\
  main entry_of lib sha512 files args false false false w 1 w' /\
  u_trace (w_ui w') = u_trace (w_ui w) ++ [Printed (MError (CHex (InvalidChar (hd 0 secret))))].
Proof.
  assert (P : parse_command_line case_digest case_secrets (map lit ["-d"; "--symmetric-key"; "pw"; "notes.rypt"]%string) false false false (w_ui case_start) =
    (Err (CHex (InvalidChar 112)), w_ui (set_ui case_start (mkUi (Some []) false false (-1) false None [])))) by (vm_compute; reflexivity).
  exists (case_names false false), toy_lib, case_digest, case_secrets, (map lit ["-d"; "--symmetric-key"; "pw"; "notes.rypt"]%string), case_start. eexists. exists (lit "p").
  split; [vm_compute; reflexivity|]. split; [reflexivity|]. split.
  - eexists (Err (CHex (InvalidChar 112))), _. split; [|split; reflexivity]. right. left. exists (CHex (InvalidChar 112)). split; [|reflexivity].
    split; [rewrite P; reflexivity|]. rewrite P. cbn [snd]. reflexivity.
  - vm_compute. reflexivity.
Qed.
Print Assumptions C70_character_of_a_secret_refuted.

(** rypt -f -g me.pub shows the public key. *)
Example C70_case : exists w', main (case_names false false) toy_lib case_digest case_secrets case_keygen_forced false false false case_start 0 w' /\
  In (MLine (lit "    Public key: " ++ trim case_public)) (printed (u_trace (w_ui w'))) /\ w_ui case_start = mkUi (Some []) false false 0 false None [].
Proof.
  destruct case_overwritten as (w' & H & _ & I). exists w'. split; [exact H|]. split; [|reflexivity]. induction (u_trace (w_ui w')) as [|e tr IH]; [destruct I|].
  destruct I as [->|I]; [left; reflexivity|]. destruct e; cbn [printed]; auto. right. auto.
Qed.

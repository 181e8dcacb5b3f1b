(** C77: -v and -q change what is said, not what is done.  [without_loudness args base] says that [base] is what
    remains of [args] after taking away some arguments made of -v and -q, [same_effect] compares files, output and
    input (LoudSpec). *)
From Coq.Strings Require Import Byte String.
From Coq Require Import List NArith ZArith Bool PeanoNat Lia.
From Verif Require Import Base Io Text Util CliErrors Getopts Crypto HeaderCrypto CredSpec KeyFiles Ui UiSpec CliCreds Paths Cli Fs Commands ToyCrypto FsSpec FsCases FsCases2 PathSpec OptSpec OptProofs CmdSpec QuietSpec LoudSpec LoudProofs LoudProofs3 PropFs2.
Import ListNotations.
Local Open Scope N_scope.

(** Two command lines differ only in -v and -q, neither has more than one -q or two -v to spare, and it is settled what
    happens to the originals.  Then whatever a run of the one can do, a run of the other can do too: the same exit
    status, the same files at every moment, the same bytes on standard output, and as much read from the terminal. *)
Theorem C77_loudness_changes_no_effect : forall (entry_of : names) lib sha512 files base args1 args2 stdin_is_tty stdout_is_tty stderr_is_tty w status w1,
  without_loudness args1 base -> without_loudness args2 base -> audible args1 -> audible args2 ->
  (args1 = [] <-> args2 = []) \/ stdout_is_tty = false ->
  u_verbosity (w_ui w) = 0%Z -> u_room (w_ui w) = None -> settled base (w_ui w) ->
  main entry_of lib sha512 files args1 stdin_is_tty stdout_is_tty stderr_is_tty w status w1 ->
  exists w2, main entry_of lib sha512 files args2 stdin_is_tty stdout_is_tty stderr_is_tty w status w2 /\ same_effect w1 w2.
Proof. intros entry_of lib sha512 files base args1 args2 a b c w status w1. apply main_loudness. Qed.
Print Assumptions C77_loudness_changes_no_effect.

(** The condition on lines without arguments is needed: at a terminal, rypt alone shows the help and succeeds, while
    rypt -v fails, because it would write the encrypted input to the terminal. *)
Theorem C77_no_arguments_refuted : exists base args1 args2 w1,
  without_loudness args1 base /\ without_loudness args2 base /\ audible args1 /\ audible args2 /\ settled base (w_ui case_start) /\
  u_verbosity (w_ui case_start) = 0%Z /\ u_room (w_ui case_start) = None /\
  main (case_names false false) toy_lib case_digest case_secrets args1 true true true case_start 0 w1 /\
  (forall status w2, main (case_names false false) toy_lib case_digest case_secrets args2 true true true case_start status w2 -> status = 1).
Proof.
  assert (L : parse_command_line case_digest case_secrets [] true true true (w_ui case_start) = (Ok Help, w_ui case_start)) by (vm_compute; reflexivity).
  assert (L2 : exists e u, parse_command_line case_digest case_secrets [lit "-v"] true true true (w_ui case_start) = (Err e, u)) by (do 2 eexists; vm_compute; reflexivity).
  destruct L2 as (e & u & L2).
  exists [], [], [lit "-v"], case_start. split; [constructor|]. split.
  { apply wl_drop; [|constructor]. right. right. exists (lit "v"). split; [discriminate|]. split; [|reflexivity]. constructor; [left; reflexivity|constructor]. }
  split; [exists [], []; split; [constructor|]; cbn; lia|]. split.
  { destruct (parse_options [lit "-v"]) as [m| |] eqn:P; try discriminate P. destruct (proj1 (options_read _ _) P) as [M O].
    exists (m_occs m), (m_free m). split; [exact M|]. vm_compute in P. injection P as <-. vm_compute. split; discriminate. }
  split; [left; reflexivity|]. split; [reflexivity|]. split; [reflexivity|]. split.
  - exists (Ok tt), case_start. split; [|split; reflexivity]. left. exists Help, case_start. split; [split; rewrite L; reflexivity|].
    exists []. split; [reflexivity|left; reflexivity].
  - intros status w2 (r & w' & [(c & wm & [Hc _] & _)|[(e' & _ & ->)|([Hc _] & _)]] & Hs).
    + rewrite L2 in Hc. discriminate Hc.
    + destruct e'; apply Hs.
    + rewrite L2 in Hc. discriminate Hc.
Qed.
Print Assumptions C77_no_arguments_refuted.

(** rypt --password-file pw --discard-inputs notes, and rypt -v --password-file pw --discard-inputs --quiet -vv notes *)
Definition chatty_command : list text := map lit ["-v"; "--password-file"; "pw"; "--discard-inputs"; "--quiet"; "-vv"; "notes"]%string.
Lemma chatty_without : without_loudness chatty_command case_command /\ without_loudness case_command case_command.
Proof.
  assert (I1 : item 0 [lit "--password-file"; lit "pw"] [mkOcc 0 OPasswordFile (Some (lit "pw"))] []) by (apply (it_long_next 0 OPasswordFile (lit "password-file")); [vm_compute; tauto|vm_compute; tauto]).
  assert (I2 : item 0 [lit "--discard-inputs"] [mkOcc 0 ODiscardInputs None] []) by (apply (it_long 0 ODiscardInputs (lit "discard-inputs")); vm_compute; intuition discriminate).
  assert (I3 : item 0 [lit "notes"] [] [lit "notes"]) by (apply it_word; vm_compute; intuition discriminate).
  assert (V : forall c, [c] = lit "v" \/ [c] = lit "q" -> [c] = lit "v" \/ [c] = lit "q") by auto.
  pose proof (wl_item 0 _ _ _ [] [] I3 wl_end) as T3. pose proof (wl_item 0 _ _ _ _ _ I2 T3) as T2. pose proof (wl_item 0 _ _ _ _ _ I1 T2) as T1.
  split; [|exact T1].
  assert (D2 : without_loudness (map lit ["--quiet"; "-vv"; "notes"]%string) [lit "notes"]).
  { apply wl_drop; [right; left; reflexivity|]. apply wl_drop; [|exact T3]. right. right. exists (lit "vv"). split; [discriminate|]. split; [|reflexivity].
    constructor; [left; reflexivity|]. constructor; [left; reflexivity|constructor]. }
  apply wl_drop; [right; right; exists (lit "v"); split; [discriminate|]; split; [|reflexivity]; constructor; [left; reflexivity|constructor]|].
  exact (wl_item 0 _ _ _ _ _ I1 (wl_item 0 _ _ _ _ _ I2 D2)).
Qed.
Lemma chatty_audible : audible chatty_command /\ audible case_command.
Proof.
  split.
  - destruct (parse_options chatty_command) as [m| |] eqn:P; try discriminate P. destruct (proj1 (options_read _ _) P) as [M O].
    exists (m_occs m), (m_free m). split; [exact M|]. vm_compute in P. injection P as <-. vm_compute. split; discriminate.
  - destruct (parse_options case_command) as [m| |] eqn:P; try discriminate P. destruct (proj1 (options_read _ _) P) as [M O].
    exists (m_occs m), (m_free m). split; [exact M|]. vm_compute in P. injection P as <-. vm_compute. split; discriminate.
Qed.
Example C77_case : exists w1 w2,
  main (case_names false false) toy_lib case_digest case_secrets case_command false false false case_start 0 w1 /\
  main (case_names false false) toy_lib case_digest case_secrets chatty_command false false false case_start 0 w2 /\ same_effect w1 w2 /\
  f_entries (w_fs w2) (num "notes") = None.
Proof.
  destruct case_program as (w1 & H & _ & G).
  destruct (C77_loudness_changes_no_effect _ _ _ _ _ _ _ false false false case_start 0 w1 (proj2 chatty_without) (proj1 chatty_without) (proj2 chatty_audible) (proj1 chatty_audible)
    (or_intror eq_refl) eq_refl eq_refl (or_introl eq_refl) H) as (w2 & H2 & S).
  exists w1, w2. split; [exact H|]. split; [exact H2|]. split; [exact S|]. rewrite <- (proj1 S). exact G.
Qed.

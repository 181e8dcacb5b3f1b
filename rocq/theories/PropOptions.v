(** C68: command lines are read as documented. *)
From Coq.Strings Require Import Byte String.
From Coq Require Import List NArith ZArith Bool PeanoNat Lia.
From Verif Require Import Base BaseFacts Text Util CliErrors Getopts Crypto Ui CliCreds Cli Paths Fs Commands ToyCrypto FsCases FsCases2 OptSpec OptProofs.
Import ListNotations.
Local Open Scope N_scope.

(** A command line is accepted by the parser, with this meaning, just if it can be read with this meaning and no
    option that is to be given once is given twice. *)
Theorem C68_accepted_lines : forall args m,
  parse_options args = Ok m <-> means 0 args (m_occs m) (m_free m) /\ forall o, only_once o -> (times o (m_occs m) <= 1)%nat.
Proof. exact options_read. Qed.
Print Assumptions C68_accepted_lines.

(** The reasons for which it is refused. *)
Theorem C68_refused_lines : forall args e,
  parse_options args = Err e <->
  goes_wrong args e \/ (e = COptionDuplicated /\ exists occs free o, means 0 args occs free /\ only_once o /\ (2 <= times o occs)%nat).
Proof. exact options_refused. Qed.
Print Assumptions C68_refused_lines.

(** The syntax is unambiguous, and every line is readable or wrong. *)
Theorem C68_one_meaning : forall args,
  (exists occs free, means 0 args occs free /\ (forall occs' free', means 0 args occs' free' -> occs' = occs /\ free' = free) /\ forall e, ~ goes_wrong args e) \/
  (exists e, goes_wrong args e /\ (forall e', goes_wrong args e' -> e' = e) /\ forall occs free, ~ means 0 args occs free).
Proof.
  intros args. destruct (read_or_wrong _ 0%nat args (Nat.le_refl _)) as [(occs & free & R)|(e & G)].
  - left. exists occs, free. split; [exact R|]. pose proof (reads_parse _ _ _ _ R) as P. split.
    + intros occs' free' R'. pose proof (reads_parse _ _ _ _ R') as P'. rewrite P in P'. injection P' as <- <-. auto.
    + intros e G. rewrite (goes_wrong_parse _ _ G) in P. discriminate P.
  - right. exists e. split; [exact G|]. pose proof (goes_wrong_parse _ _ G 0%nat) as P. split.
    + intros e' G'. rewrite (goes_wrong_parse _ _ G') in P. injection P as <-. reflexivity.
    + intros occs free R. rewrite (reads_parse _ _ _ _ R) in P. discriminate P.
Qed.
Print Assumptions C68_one_meaning.

(** After two dashes every argument is a file, also if it looks like an option. *)
Theorem C68_files_after_dashes : forall args rest m,
  ~ In (lit "--") args -> parse_options args = Ok m -> parse_options (args ++ lit "--" :: rest) = Ok (mkMatches (m_occs m) (m_free m ++ rest)).
Proof.
  intros args rest m N H. apply options_read in H as [R O]. apply options_read. split; [|exact O]. exact (reads_stop _ _ _ _ rest R N).
Qed.
Print Assumptions C68_files_after_dashes.

(** With a line that cannot be read, or with an option given twice, rypt fails and touches nothing. *)
Theorem C68_refused_lines_do_nothing : forall entry_of lib sha512 files args tin tout terr w status w',
  (exists e, goes_wrong args e) \/ (exists occs free o, means 0 args occs free /\ only_once o /\ (2 <= times o occs)%nat) ->
  main entry_of lib sha512 files args tin tout terr w status w' ->
  status = 1 /\ w_fs w' = w_fs w /\ w_past w' = w_past w /\ w_stdout w' = w_stdout w.
Proof.
  intros entry_of lib sha512 files args tin tout terr w status w' Hw (r & w1 & Hm & Hs).
  assert (P : exists e, parse_options args = Err e /\ e <> CComposite).
  { destruct Hw as [(e & G)|D]; [exists e|exists COptionDuplicated]; (split; [apply options_refused; auto|]); [|discriminate].
    clear Hm Hs.     induction G as [a e W|p a o f rest e I G IH]; [destruct W; discriminate|exact IH]. }
  destruct P as (e & P & Ne). unfold main, io_bind, io_ui, parse_command_line, bind_act, lift in Hm. rewrite P in Hm. cbn [fst snd] in Hm.
  destruct Hm as [(a & w2 & (E & _) & _)|[(e' & (E & ->) & ->)|((E & _) & _)]]; try discriminate E. injection E as ->.
  assert (K : status = 1 /\ w' = set_ui (set_ui w (w_ui w)) (snd (print_error e (w_ui w)))) by (destruct e; try exact Hs; contradiction).
  destruct K as [-> ->]. cbn [set_ui w_fs w_past w_stdout]. auto.
Qed.
Print Assumptions C68_refused_lines_do_nothing.

(** Examples: [-vK --suffix=x -t 2 notes -- -e] *)
Definition case_line : list text := map lit ["-vK"; "--suffix=x"; "-t"; "2"; "notes"; "--"; "-e"]%string.
Example C68_case : means 0 case_line
  [mkOcc 0 OVerbose None; mkOcc 0 OKeepInputs None; mkOcc 1 OSuffix (Some (lit "x")); mkOcc 2 OKeyThreshold (Some (lit "2"))] [lit "notes"; lit "-e"].
Proof.
  refine (rd_item 0 [lit "-vK"] _ [] _ _ _ (it_short 0 [OVerbose; OKeepInputs] (lit "vK") _ _) _);
    [repeat constructor; cbn; tauto|discriminate|].
  refine (rd_item 1 [lit "--suffix=x"] _ [] _ _ _ (it_long_equals 1 OSuffix (lit "suffix") (lit "x") (or_introl eq_refl) I) _).
  refine (rd_item 2 [lit "-t"; lit "2"] _ [] _ _ _ (it_short_next 2 [] [] OKeyThreshold 116 (lit "2") (Forall2_nil _) eq_refl I) _).
  refine (rd_item 3 [lit "notes"] [] [lit "notes"] _ _ _ (it_word 3 (lit "notes") _) _); [intros a'; discriminate|]. apply rd_stop.
Qed.
Example C68_case_accepted : exists m, parse_options case_line = Ok m /\ m_free m = [lit "notes"; lit "-e"].
Proof. eexists. split; vm_compute; reflexivity. Qed.
(** [notes -e -S]: the value is missing; [--encrypt=no]; [-ez]; [-e --encrypt] *)
Example C68_wrong_case : goes_wrong (map lit ["notes"; "-eS"]%string) CArgumentMissing /\ goes_wrong (map lit ["--encrypt=no"; "x"]%string) CUnexpectedArgument /\
  parse_options (map lit ["-ez"]%string) = Err CUnrecognizedOption /\ parse_options (map lit ["-e"; "--encrypt"]%string) = Err COptionDuplicated.
Proof.
  split; [|split; [|split; vm_compute; reflexivity]].
  - refine (gw_later 0 [lit "notes"] [] [lit "notes"] _ _ (it_word 0 _ _) (gw_here _ _ (wr_short_last [OEncrypt] (lit "e") OSuffix 83 _ eq_refl I))); [intros a'; discriminate|repeat constructor; cbn; tauto].
  - refine (gw_here _ _ (wr_value OEncrypt (lit "encrypt") (lit "no") _ (or_introl eq_refl) _)). cbn. tauto.
Qed.
Example C68_refused_case : exists w', main (case_names false false) toy_lib case_digest case_secrets (map lit ["--encrypt=no"; "notes"]%string) false false false case_start 1 w'.
Proof.
  eexists. unfold main. eexists (Err CUnexpectedArgument), _. split; [|split; reflexivity].
  right. left. exists CUnexpectedArgument. split; [split; reflexivity|reflexivity].
Qed.

(** C85: the output of a run is divided into numbered sections, one for each file or key pair, and what they say is so
    ([section], [key_section], [closing] and [truthful] are in SectionSpec). *)
From Coq.Strings Require Import Byte String.
From Coq Require Import List NArith ZArith Bool PeanoNat Lia.
From Verif Require Import Base Io Text Util UtilSpec UtilProofs2 CliErrors Getopts Crypto HeaderCrypto CredSpec KeyFiles Ui UiSpec CliCreds Paths Cli Fs Commands ToyCrypto FsSpec FsCases FsCases2 PathSpec OptSpec OptProofs CmdSpec QuietSpec LoudSpec PropLoud PropFs2 FsProofs12 FsProofs13 FsProofs14 FsProofs15 FsProofs16 FsProofs17 ShowSpec SectionSpec SectionProofs SectionProofs2 CmdProofs SectionProofs3.
Import ListNotations.
Local Open Scope N_scope.

(** Encryption and decryption, with -v or at a terminal.  The output consists of one section for each file, in their
    order and with their number, and what comes after: nothing if the originals are to be kept or if there are no
    originals to remove, only errors if they are to be removed without asking.  The exit status is 0 only if no section
    has an error, and if it is not 0 then some section has one or something comes after. *)
Theorem C85_sections_of_a_run : forall entry_of lib sha512 files args stdin_is_tty stdout_is_tty stderr_is_tty occs free streams policy force d u w status w',
  means 0 args occs free ->
  (quietness occs < 0)%Z \/ (quietness occs = 0%Z /\ stdin_is_tty = true /\ stdout_is_tty = true /\ stderr_is_tty = true) ->
  u_room (w_ui w) = None ->
  parse_command_line sha512 files args stdin_is_tty stdout_is_tty stderr_is_tty (w_ui w) = (Ok (CryptStreams streams policy force d), u) ->
  main entry_of lib sha512 files args stdin_is_tty stdout_is_tty stderr_is_tty w status w' -> status <> 101 ->
  exists tr parts tail, u_trace (w_ui w') = u_trace u ++ tr /\ printed tr = concat (map snd parts) ++ tail /\ length parts = length streams /\
    (forall i s part, nth_error streams i = Some s -> nth_error parts i = Some part -> section force i (length streams) s (fst part) (snd part)) /\
    (lib_ok lib -> wf_fs (w_fs w) -> force = false -> truthful entry_of lib streams d parts w w') /\
    Forall closing tail /\ (policy = DeleteFiles -> Forall (fun m => exists e, m = MError e) tail) /\ (policy = KeepFiles -> tail = []) /\
    ((forall i s p part, nth_error streams i = Some s -> nth_error parts i = Some part -> s_input s = IFile p -> fst part <> []) -> tail = []) /\
    (status = 0 -> forall part, In part parts -> fst part = []) /\
    (tail = [] -> status <> 0 -> exists part, In part parts /\ fst part <> []).
Proof.
  intros entry_of lib sha512 files args ti to te occs free streams policy force d u w status w' M Q R L H N.
  exact (main_crypt_sections entry_of lib sha512 files args ti to te w status w' streams policy force d u
    (line_fine_crypt sha512 files args ti to te occs free (w_ui w) streams policy force d u M Q R L) L H N).
Qed.
Print Assumptions C85_sections_of_a_run.

(** rypt -v --password-file pw --discard-inputs --quiet -vv notes *)
Lemma chatty_means : exists occs free, means 0 chatty_command occs free /\ (quietness occs < 0)%Z.
Proof.
  destruct (parse_options chatty_command) as [m| |] eqn:P; try discriminate P. destruct (proj1 (options_read _ _) P) as [M O].
  exists (m_occs m), (m_free m). split; [exact M|]. vm_compute in P. injection P as <-. vm_compute. reflexivity.
Qed.
Lemma chatty_parsed : exists u, parse_command_line case_digest case_secrets chatty_command false false false (w_ui case_start) = (Ok (CryptStreams [case_stream "notes" "notes.rypt"] DeleteFiles false case_enc), u) /\ u_trace u = [].
Proof. eexists. split; vm_compute; reflexivity. Qed.
Example C85_case : exists w' lines errors, main (case_names false false) toy_lib case_digest case_secrets chatty_command false false false case_start 0 w' /\
  printed (u_trace (w_ui w')) = MLine (lit "notes -> notes.rypt (1/1)") :: repeat MProgress lines ++ [MLine []] ++ map MError errors.
Proof.
  destruct C77_case as (_ & w' & _ & H & _). destruct chatty_means as (occs & free & M & Q). destruct chatty_parsed as (u & L & T).
  destruct (C85_sections_of_a_run (case_names false false) toy_lib case_digest case_secrets chatty_command false false false occs free [case_stream "notes" "notes.rypt"] DeleteFiles false case_enc u case_start 0 w'
    M (or_introl Q) eq_refl L H ltac:(discriminate)) as (tr & parts & tail & Et & Ep & Len & S & _ & _ & D & _ & _ & Z & _).
  destruct parts as [|part [|]]; [discriminate Len| |discriminate Len]. specialize (Z eq_refl part (or_introl eq_refl)).
  destruct (S 0%nat _ part eq_refl eq_refl) as (_ & t & lines & (a & b & number & total & A & B & Dn & Dt & ->) & Es). specialize (D eq_refl).
  assert (E : exists errors, tail = map MError errors).
  { clear - D. induction D as [|m l (e & ->) _ (es & ->)]; [exists []; reflexivity|exists (e :: es); reflexivity]. }
  destruct E as (errors & ->). exists w', lines, errors. split; [exact H|]. rewrite Et, T. cbn [app map concat] in *. rewrite Ep, Es, Z, app_nil_r.
  assert (number = lit "1") as -> by (apply (denotes_unique _ _ 1); [exact Dn|exact (dec_spec 1)]).
  assert (total = lit "1") as -> by (apply (denotes_unique _ _ 1); [exact Dt|exact (dec_spec 1)]).
  cbn [case_stream s_input s_output from_name to_name] in A, B. rewrite A, B. cbn [app map]. rewrite <- app_assoc. reflexivity.
Qed.

(** The names in the sections ([path_text]) name the files: read as a path again, each is the path of the file.  So
    different files are never shown under one name. *)
Theorem C85_names_name_the_files : forall sha512 files args stdin_is_tty stdout_is_tty stderr_is_tty u u' c,
  parse_command_line sha512 files args stdin_is_tty stdout_is_tty stderr_is_tty u = (Ok c, u') ->
  (forall streams policy force d, c = CryptStreams streams policy force d -> forall s p, In s streams ->
     s_input s = IFile p \/ s_input s = IFileStream p \/ s_output s = Ok (OFile p) -> components (path_text p) = p) /\
  (forall streams force, c = GenerateKeyPair streams force -> forall k p, In k streams ->
     k_public k = Some p \/ k_private k = OFile p -> components (path_text p) = p).
Proof.
  intros sha512 files args ti to te u u' c H. split.
  - intros streams policy force d -> s p I E. destruct (PathProofs.command_line_inv _ _ _ _ _ _ _ _ _ H) as (m & _ & _ & C).
    destruct (C _ _ _ _ eq_refl) as (dir & _ & _ & _ & _ & G & _). destruct (streams_proper _ _ _ _ _ G I) as [A B]. apply shown_back.
    destruct E as [E|[E|E]]; auto.
  - intros streams force -> k p I E. destruct (line_command _ _ _ _ _ _ _ _ _ H) as (m & _ & _ & _ & _ & K). destruct (K _ _ eq_refl) as [G _].
    unfold get_keypair_streams, ensure in G. destruct (match m_free m with [] => false | _ => true end); [|discriminate G]. cbn [bind] in G.
    destruct (keys_proper _ _ _ _ G I) as [A B]. apply shown_back. destruct E as [E|E]; auto.
Qed.
Print Assumptions C85_names_name_the_files.
Example C85_names_case : exists u streams, parse_command_line case_digest case_secrets (map lit ["--password-file"; "pw"; "./a//b.txt/"; "/c/../d"]%string) false false false (w_ui case_start) =
    (Ok (CryptStreams streams PromptUser false case_enc), u) /\
  map (fun s => input_path (s_input s)) streams = [lit "./a/b.txt"; lit "/c/../d"].
Proof. eexists _, _. split; vm_compute; reflexivity. Qed.

(** Key pairs, unless -q is given: one section for each, with its public key; the exit status is 0 exactly if no section
    has an error. *)
Theorem C85_sections_of_key_pairs : forall entry_of lib sha512 files args stdin_is_tty stdout_is_tty stderr_is_tty occs free streams force u w status w' cs,
  (forall b, sha512 b <> []) -> lib ChaCha20Poly1305Ietf = Some cs ->
  means 0 args occs free -> (quietness occs <= 0)%Z -> u_room (w_ui w) = None ->
  parse_command_line sha512 files args stdin_is_tty stdout_is_tty stderr_is_tty (w_ui w) = (Ok (GenerateKeyPair streams force), u) ->
  main entry_of lib sha512 files args stdin_is_tty stdout_is_tty stderr_is_tty w status w' -> status <> 101 ->
  exists tr parts, u_trace (w_ui w') = u_trace (w_ui w) ++ tr /\ printed tr = concat (map snd parts) /\ length parts = length streams /\
    (forall i ks part, nth_error streams i = Some ks -> nth_error parts i = Some part ->
       exists seed, key_section i (length streams) ks (checksummed_text (sha512 (fst (cs_keypair cs seed))) (fst (cs_keypair cs seed))) (fst part) (snd part)) /\
    (status = 0 <-> forall part, In part parts -> fst part = []).
Proof.
  intros entry_of lib sha512 files args ti to te occs free streams force u w status w' cs Hs Lc M Q R L H N.
  destruct (line_fine_keys sha512 files args ti to te occs free (w_ui w) streams force u M Q R L) as [F E]. rewrite <- E.
  exact (main_key_sections entry_of lib sha512 Hs files args ti to te w status w' streams force u cs F Lc L H N).
Qed.
Print Assumptions C85_sections_of_key_pairs.

(** rypt -g me *)
Example C85_key_pairs_case : exists w' key, main (case_names false false) toy_lib case_digest case_secrets case_keygen false false false case_start 0 w' /\
  printed (u_trace (w_ui w')) = map MLine [lit "Keypair 1/1:"; lit "    Public key: " ++ key; lit "    Public key file: me.pub"; lit "    Private key file: me"; []].
Proof.
  assert (G : exists w', generate_key_pair_files (case_names false false) toy_lib case_digest [case_pair] false case_start (Ok tt) w').
  { destruct (total_generate (case_names false false) toy_lib case_digest [case_pair] false case_start case_spacious) as ((r & w' & H) & _).
    assert (r = Ok tt) as ->; [|eauto]. eapply (generate_ready (case_names false false) toy_lib case_digest toy_lib_ok eq_refl); [exact H|discriminate|reflexivity|exact case_spacious|apply case_free]. }
  destruct G as (w' & G).
  assert (H : main (case_names false false) toy_lib case_digest case_secrets case_keygen false false false case_start 0 w').
  { exists (Ok tt), w'. split; [|split; reflexivity]. left. exists (GenerateKeyPair [case_pair] false), case_start. split; [split; rewrite case_keygen_parsed; reflexivity|exact G]. }
  assert (M : exists occs free, means 0 case_keygen occs free /\ (quietness occs <= 0)%Z).
  { destruct (parse_options case_keygen) as [m| |] eqn:P; try discriminate P. destruct (proj1 (options_read _ _) P) as [M O].
    exists (m_occs m), (m_free m). split; [exact M|]. vm_compute in P. injection P as <-. vm_compute. discriminate. }
  destruct M as (occs & free & M & Q).
  destruct (C85_sections_of_key_pairs (case_names false false) toy_lib case_digest case_secrets case_keygen false false false occs free [case_pair] false (w_ui case_start) case_start 0 w' _
    ltac:(intros b; discriminate) eq_refl M Q eq_refl case_keygen_parsed H ltac:(discriminate)) as (tr & parts & Et & Ep & Len & S & Z).
  destruct parts as [|part [|]]; [discriminate Len| |discriminate Len]. pose proof (proj1 Z eq_refl part (or_introl eq_refl)) as Z0.
  destruct (S 0%nat _ part eq_refl eq_refl) as (seed & _ & number & total & name & Dn & Dt & Pn & shown & Es & K). rewrite Z0 in *.
  exists w'. eexists. split; [exact H|]. rewrite Et. change (printed (u_trace (w_ui case_start) ++ tr)) with (printed tr). cbn [map concat] in Ep. rewrite Ep, Es, app_nil_r.
  assert (number = lit "1") as -> by (apply (denotes_unique _ _ 1); [exact Dn|exact (dec_spec 1)]).
  assert (total = lit "1") as -> by (apply (denotes_unique _ _ 1); [exact Dt|exact (dec_spec 1)]).
  destruct K as [->|(X & _)]; [|congruence]. cbn [case_pair k_private private_name] in Pn. rewrite Pn. reflexivity.
Qed.

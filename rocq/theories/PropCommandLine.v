(** C69: an accepted command line asks for what it says.  [means] (OptSpec) is the documented syntax. *)
From Coq.Strings Require Import Byte String.
From Coq Require Import List NArith ZArith Bool PeanoNat Lia.
From Verif Require Import Base BaseFacts Io Text Util CliErrors Getopts Crypto HeaderCrypto KeyFiles Ui CliCreds CliSpec CliProofs Paths Cli PathSpec PathProofs SettingsProofs OptSpec OptProofs CmdSpec CmdProofs PropNames.
Import ListNotations.
Local Open Scope N_scope.

(** Encryption and decryption: force, fast, the originals, inputs and outputs. *)
Theorem C69_options_have_their_effect : forall sha512 files args occs free tin tout terr u streams policy force dir u',
  means 0 args occs free ->
  parse_command_line sha512 files args tin tout terr u = (Ok (CryptStreams streams policy force dir), u') ->
  (force = true <-> given OForce occs) /\ originals occs policy /\ sources occs free streams /\
  (forall c fast, dir = DoEncrypt c fast -> (fast = true <-> given OFast occs)).
Proof.
  intros sha512 files args occs free tin tout terr u streams policy force dir u' R H.
  destruct (line_command _ _ _ _ _ _ _ _ _ H) as (m & P & _ & KD & Fa & _). pose proof (means_is _ _ _ _ R P) as ->.
  destruct (command_line_inv _ _ _ _ _ _ _ _ _ H) as (m' & P' & _ & C). assert (m' = mkMatches occs free) as -> by congruence.
  destruct (C _ _ _ _ eq_refl) as (d & u1 & u2 & _ & Ef & Hs & _ & _ & _ & Ep). specialize (KD _ _ _ _ eq_refl).
  split; [rewrite Ef; apply present_iff|]. split; [|split; [eapply sources_ok, Hs|]].
  - rewrite Ep. unfold originals.
    destruct (opt_present (mkMatches occs free) OKeepInputs) eqn:EK, (opt_present (mkMatches occs free) ODiscardInputs) eqn:ED;
      try (destruct KD; auto; fail); (apply present_iff in EK + apply present_false in EK); (apply present_iff in ED + apply present_false in ED); auto.
  - intros c fast ->. rewrite (Fa _ _ _ _ _ eq_refl). apply present_iff.
Qed.
Print Assumptions C69_options_have_their_effect.

(** The names of encrypted files. *)
Theorem C69_encrypted_names : forall sha512 files args occs free tin tout terr u streams policy force c fast u' p q d n,
  means 0 args occs free ->
  parse_command_line sha512 files args tin tout terr u = (Ok (CryptStreams streams policy force (DoEncrypt c fast)), u') ->
  In (mkStream (IFile p) (Ok (OFile q))) streams -> is_file p d n -> ~ ends_in_dot n ->
  exists s, suffix occs s /\ (~ In 47 s -> s <> [] \/ has_inner_dot n -> is_file q d (n ++ lit "." ++ s)).
Proof.
  intros sha512 files args occs free tin tout terr u streams policy force c fast u' p q d n R H I F Nd.
  destruct (command_line_inv _ _ _ _ _ _ _ _ _ H) as (m & P & _ & C). pose proof (means_is _ _ _ _ R P) as ->.
  destruct (C _ _ _ _ eq_refl) as (d' & u1 & u2 & Ed & _ & Hs & _). pose proof (proj2 Ed (ex_intro _ c (ex_intro _ fast eq_refl))) as ->.
  exists (get_encrypted_file_extension (mkMatches occs free)). split; [eapply suffix_ok, R|]. intros Ns Hn.
  exact (C33_encrypted_name _ _ _ _ _ _ _ Hs I F Nd Ns Hn).
Qed.
Print Assumptions C69_encrypted_names.
Theorem C69_decrypted_names : forall sha512 files args occs free tin tout terr u streams policy force cs u' p q,
  means 0 args occs free ->
  parse_command_line sha512 files args tin tout terr u = (Ok (CryptStreams streams policy force (DoDecrypt cs)), u') ->
  In (mkStream (IFile p) (Ok (OFile q))) streams ->
  exists s d n, suffix occs s /\ is_file p d (n ++ lit "." ++ s) /\ n <> [] /\ q <> p /\ (n <> lit "." -> n <> lit ".." -> is_file q d n).
Proof.
  intros sha512 files args occs free tin tout terr u streams policy force cs u' p q R H I.
  destruct (command_line_inv _ _ _ _ _ _ _ _ _ H) as (m & P & _ & C). pose proof (means_is _ _ _ _ R P) as ->.
  destruct (C _ _ _ _ eq_refl) as (d' & u1 & u2 & Ed & _ & Hs & _).
  assert (d' = Decrypt) as -> by (destruct d'; [destruct (proj1 Ed eq_refl) as (? & ? & X); discriminate X|reflexivity]).
  destruct (C33_decrypted_name _ _ _ _ _ Hs I) as (d & n & A & B & D & E). exists (get_encrypted_file_extension (mkMatches occs free)), d, n.
  split; [eapply suffix_ok, R|]. auto.
Qed.
Print Assumptions C69_decrypted_names.

(** Without key options a password is asked for, and it is all that is needed. *)
Theorem C69_without_keys_a_password : forall sha512 files args occs free tin tout terr u streams policy force dir u',
  means 0 args occs free -> (forall o, key_option o -> ~ given o occs) ->
  parse_command_line sha512 files args tin tout terr u = (Ok (CryptStreams streams policy force dir), u') ->
  exists u2 p, match dir with
    | DoEncrypt c _ => read_password_interactively Encrypt None u2 = (Ok (Password p), u') /\ c = Complex [(1, Password p)] 1 1
    | DoDecrypt cs => read_password_interactively Decrypt None u2 = (Ok (Password p), u') /\ cs = [Password p]
    end.
Proof.
  intros sha512 files args occs free tin tout terr u streams policy force dir u' R N H.
  destruct (command_line_inv _ _ _ _ _ _ _ _ _ H) as (m & P & _ & C). pose proof (means_is _ _ _ _ R P) as ->.
  destruct (C _ _ _ _ eq_refl) as (d & u1 & u2 & _ & _ & _ & _ & D & _). exists u2. destruct d.
  - destruct D as (c & fast & -> & D). destruct (prompt_encrypt _ _ _ _ _ _ _ _ _ P N D) as (p & Hp & ->). pose proof (interactive_password _ _ _ _ _ Hp) as K. destruct p as [p| | | |]; try destruct K. exists p. auto.
  - destruct D as (cs & -> & D). destruct (prompt_decrypt _ _ _ _ _ _ _ _ _ P N D) as (p & Hp & ->). pose proof (interactive_password _ _ _ _ _ Hp) as K. destruct p as [p| | | |]; try destruct K. exists p. auto.
Qed.
Print Assumptions C69_without_keys_a_password.

(** Key pairs: one for each argument, in the named file and next to it; at most one on standard output. *)
Theorem C69_key_pairs : forall sha512 files args occs free tin tout terr u ks force u',
  means 0 args occs free ->
  parse_command_line sha512 files args tin tout terr u = (Ok (GenerateKeyPair ks force), u') ->
  (force = true <-> given OForce occs) /\ free <> [] /\ Forall2 key_pair free ks /\ (count_occ (list_eq_dec N.eq_dec) free (lit "-") <= 1)%nat.
Proof.
  intros sha512 files args occs free tin tout terr u ks force u' R H.
  destruct (line_command _ _ _ _ _ _ _ _ _ H) as (m & P & _ & _ & _ & K). pose proof (means_is _ _ _ _ R P) as ->.
  destruct (K _ _ eq_refl) as [E ->]. split; [apply present_iff|]. unfold get_keypair_streams in E. cbn [m_free] in E.
  split; [intros ->; discriminate E|]. destruct free as [|a free]; [discriminate E|]. exact (keypairs_ok (a :: free) false ks E).
Qed.
Print Assumptions C69_key_pairs.

(** At most two more [-v] than [-q], or [-q] than [-v]. *)
Theorem C69_verbosity : forall sha512 files args occs free tin tout terr u c u',
  means 0 args occs free -> parse_command_line sha512 files args tin tout terr u = (Ok c, u') ->
  (times OVerbose occs <= times OQuiet occs + 2)%nat /\ (times OQuiet occs <= times OVerbose occs + 2)%nat.
Proof.
  intros sha512 files args occs free tin tout terr u c u' R H.
  destruct (line_command _ _ _ _ _ _ _ _ _ H) as (m & P & V & _). pose proof (means_is _ _ _ _ R P) as ->. rewrite !times_count in V. lia.
Qed.
Print Assumptions C69_verbosity.

(** Examples: [-D -S .enc --password-file pw a.txt], [-g me.key -]. *)
Definition line_ui : ui := mkUi (Some []) false false 0 false None [].
Definition line_files (f : text) : option bytes := if text_eqb f (lit "pw") then Some [x70; x0a] else None.
Definition line_crypt : list text := map lit ["-D"; "-S"; ".enc"; "--password-file"; "pw"; "a.txt"]%string.
Example C69_case : exists c u',
  means 0 line_crypt [mkOcc 0 ODiscardInputs None; mkOcc 1 OSuffix (Some (lit ".enc")); mkOcc 2 OPasswordFile (Some (lit "pw"))] [lit "a.txt"] /\
  parse_command_line (fun b => b) line_files line_crypt false false false line_ui =
    (Ok (CryptStreams [mkStream (IFile [Normal (lit "a.txt")]) (Ok (OFile [Normal (lit "a.txt.enc")]))] DeleteFiles false (DoEncrypt c false)), u').
Proof.
  eexists _, _. split; [|vm_compute; reflexivity].
  refine (proj1 (proj1 (options_read line_crypt (mkMatches _ _)) _)). vm_compute. reflexivity.
Qed.
Example C69_key_pairs_case : exists u', means 0 (map lit ["-g"; "me.key"; "-"]%string) [mkOcc 0 OGenKeypair None] [lit "me.key"; lit "-"] /\
  parse_command_line (fun b => b) line_files (map lit ["-g"; "me.key"; "-"]%string) false false false line_ui =
    (Ok (GenerateKeyPair [mkKeyStreams (Some [Normal (lit "me.pub")]) (OFile [Normal (lit "me.key")]); mkKeyStreams None OStdout] false), u').
Proof.
  eexists. split; [|vm_compute; reflexivity].
  refine (proj1 (proj1 (options_read _ (mkMatches _ _)) _)). vm_compute. reflexivity.
Qed.
(** [-d a.rypt] with a password typed on a terminal *)
Example C69_password_case : exists p u', means 0 (map lit ["-d"; "a.rypt"]%string) [mkOcc 0 ODecrypt None] [lit "a.rypt"] /\
  parse_command_line (fun b => b) line_files (map lit ["-d"; "a.rypt"]%string) true true true (mkUi (Some [RData [x68; x69; x0a]]) true true 0 false None []) =
    (Ok (CryptStreams [mkStream (IFile [Normal (lit "a.rypt")]) (Ok (OFile [Normal (lit "a")]))] PromptUser false (DoDecrypt [Password p])), u').
Proof.
  eexists _, _. split; [|vm_compute; reflexivity].
  refine (proj1 (proj1 (options_read _ (mkMatches _ _)) _)). vm_compute. reflexivity.
Qed.

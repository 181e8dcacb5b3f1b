(** Documented command lines that succeed (C74). *)
From Coq.Strings Require Import Byte String.
From Coq Require Import List NArith ZArith Bool PeanoNat Lia.
From Verif Require Import Base BaseFacts Shamir Errors Io Text Util CliErrors Getopts Crypto HeaderCrypto CredSpec KeyFiles Ui UiSpec Paths PathSpec PathProofs CliCreds Cli CliSpec CliProofs CliProofs2 CliProofs3 CliProofs4 SettingsProofs OptSpec OptProofs CmdSpec CmdProofs PropUi.
Import ListNotations.
Local Open Scope N_scope.

Ltac not_twice := let o := fresh in let n := fresh in intros o n; destruct o; cbn; lia.
Ltac one_letter := repeat constructor; cbn; tauto.

Lemma parse_g k : is_word k -> parse_options [lit "-g"; k] = Ok (mkMatches [mkOcc 0 OGenKeypair None] [k]).
Proof.
  intros Wk. apply options_read. cbn [m_occs m_free]. split; [|not_twice].
  apply (rd_item 0 [lit "-g"] [mkOcc 0 OGenKeypair None] [] [k] [] [k]).
  - apply (it_short 0 [OGenKeypair] (lit "g")); [one_letter|discriminate].
  - apply (rd_item 1 [k] [] [k] [] [] []); constructor. exact Wk.
Qed.
Lemma means_word pos f : is_word f -> means pos [f] [] [f].
Proof. intros Wf. apply (rd_item pos [f] [] [f] [] [] []); constructor. exact Wf. Qed.
Lemma means_value pos o (name : string) v rest occs free : called o (lit name) -> takes_value o -> means (S pos) rest occs free ->
  means pos (lit ("--" ++ name) :: v :: rest) (mkOcc pos o (Some v) :: occs) free.
Proof. intros C T M. apply (rd_item pos [lit ("--" ++ name); v] [mkOcc pos o (Some v)] [] rest occs free); [|exact M]. apply (it_long_next pos o (lit name)); assumption. Qed.
Lemma means_flag pos o (c : string) rest occs free : flags [o] (lit c) -> means (S pos) rest occs free ->
  means pos (lit ("-" ++ c) :: rest) (mkOcc pos o None :: occs) free.
Proof. intros C M. apply (rd_item pos [lit ("-" ++ c)] [mkOcc pos o None] [] rest occs free); [|exact M]. apply (it_short pos [o] (lit c)); [exact C|discriminate]. Qed.

Definition encrypt_line (pub f : text) : list text := [lit "-K"; lit "--public-key"; pub; f].
Definition decrypt_line (priv f : text) : list text := [lit "-d"; lit "-K"; lit "--private-key"; priv; f].
Lemma parse_encrypt_line pub f : is_word f -> parse_options (encrypt_line pub f) = Ok (mkMatches [mkOcc 0 OKeepInputs None; mkOcc 1 OPublicKey (Some pub)] [f]).
Proof.
  intros Wf. apply options_read. cbn [m_occs m_free]. split; [|not_twice].
  apply (means_flag 0 OKeepInputs "K"); [one_letter|]. apply (means_value 1 OPublicKey "public-key"); [left; reflexivity|exact I|]. apply means_word, Wf.
Qed.
Lemma parse_decrypt_line priv f : is_word f -> parse_options (decrypt_line priv f) = Ok (mkMatches [mkOcc 0 ODecrypt None; mkOcc 1 OKeepInputs None; mkOcc 2 OPrivateKey (Some priv)] [f]).
Proof.
  intros Wf. apply options_read. cbn [m_occs m_free]. split; [|not_twice].
  apply (means_flag 0 ODecrypt "d"); [one_letter|]. apply (means_flag 1 OKeepInputs "K"); [one_letter|]. apply (means_value 2 OPrivateKey "private-key"); [left; reflexivity|exact I|]. apply means_word, Wf.
Qed.
Definition encrypt_typed (f : text) : list text := [lit "-K"; f].
Definition decrypt_typed (f : text) : list text := [lit "-d"; lit "-K"; f].
Lemma parse_encrypt_typed f : is_word f -> parse_options (encrypt_typed f) = Ok (mkMatches [mkOcc 0 OKeepInputs None] [f]).
Proof. intros Wf. apply options_read. cbn [m_occs m_free]. split; [|not_twice]. apply (means_flag 0 OKeepInputs "K"); [one_letter|]. apply means_word, Wf. Qed.
Lemma parse_decrypt_typed f : is_word f -> parse_options (decrypt_typed f) = Ok (mkMatches [mkOcc 0 ODecrypt None; mkOcc 1 OKeepInputs None] [f]).
Proof.
  intros Wf. apply options_read. cbn [m_occs m_free]. split; [|not_twice].
  apply (means_flag 0 ODecrypt "d"); [one_letter|]. apply (means_flag 1 OKeepInputs "K"); [one_letter|]. apply means_word, Wf.
Qed.

Lemma bind_run {A B} (m : act A) (f : A -> act B) u a u1 : m u = (Ok a, u1) -> bind_act m f u = f a u1.
Proof. intros E. unfold bind_act. rewrite E. reflexivity. Qed.

Lemma one_stream occs f d q : ~ given OStream occs -> ~ given OSuffix occs -> f <> lit "-" -> trim f <> lit "-" ->
  match d with Encrypt => add_extension (components f) (lit "rypt") false | Decrypt => remove_extension (components f) (lit "rypt") end = Ok q ->
  get_input_output_streams (mkMatches occs [f]) d false = Ok [mkStream (IFile (components f)) (Ok (OFile q))].
Proof.
  intros No Ns Nf Nt E. unfold get_input_output_streams. cbn [m_free]. rewrite (proj2 (present_false occs [f] OStream) No).
  destruct (text_eqb f dash) eqn:Ed; [apply text_eqb_eq in Ed; contradiction|]. cbn [orb existsb].
  destruct (text_eqb (trim f) dash) eqn:Et; [apply text_eqb_eq in Et; contradiction|]. cbn [orb negb ensure bind map].
  replace (get_encrypted_file_extension (mkMatches occs [f])) with (lit "rypt").
  - destruct d; rewrite E; reflexivity.
  - unfold get_encrypted_file_extension. apply (present_false occs [f]) in Ns. unfold opt_present in Ns. unfold opt_str, opt_strs_pos. destruct (occs_of (mkMatches occs [f]) OSuffix); [reflexivity|discriminate Ns].
Qed.
Lemma one_adjusted p q d tin tout terr u : exists u', check_and_adjust_ui_verbosity 0 [mkStream (IFile p) (Ok (OFile q))] d false tin tout terr u = (Ok tt, u') /\
  u_input u' = u_input u /\ u_room u' = u_room u /\ u_input_is_tty u' = u_input_is_tty u /\ u_output_is_tty u' = u_output_is_tty u /\ (-1 <= u_verbosity u')%Z.
Proof.
  unfold check_and_adjust_ui_verbosity. cbn [is_stdin is_stdout s_input s_output andb]. rewrite !andb_false_r, Z.eqb_refl. cbn [andb]. eexists. split; [reflexivity|].
  destruct (terr && _ && _); cbn; repeat split; lia.
Qed.

(** A terminal that always works goes on working. *)
Definition roomy {A} (m : act A) : Prop := forall u, u_room u = None -> u_room (snd (m u)) = None.
Lemma roomy_ret {A} (a : A) : roomy (ret a).
Proof. intros u. auto. Qed.
Lemma roomy_lift {A} (x : outcome cerr A) : roomy (lift x).
Proof. intros u. auto. Qed.
Lemma roomy_bind {A B} (m : act A) (f : A -> act B) : roomy m -> (forall a, roomy (f a)) -> roomy (bind_act m f).
Proof. intros M F u R. unfold bind_act. specialize (M u R). destruct (m u) as [[a| |] u1]; cbn [snd] in *; [apply F|..]; exact M. Qed.
Lemma roomy_emit m : roomy (emit m).
Proof. intros u R. unfold emit. rewrite R. exact R. Qed.
Lemma roomy_interactive t : roomy (println_interactive t).
Proof. intros u R. unfold println_interactive. destruct (will_print u _); [apply roomy_emit, R|exact R]. Qed.
Lemma roomy_read_prompt p : roomy (read_prompt p).
Proof.
  intros u. unfold read_prompt. destruct (negb (can_read u)); [auto|]. revert u. apply roomy_bind; [apply roomy_emit|]. intros _ u R.
  destruct (u_input u) as [s|] eqn:E; [|exact R]. destruct (read_chars _ s [] []) as [[t| |] s']; exact R.
Qed.
Lemma roomy_read_password p : roomy (read_password p).
Proof.
  intros u. unfold read_password. destruct (negb (can_read u)); [auto|]. revert u. apply roomy_bind; [intros u; auto|]. intros _ u R.
  pose proof (roomy_read_prompt p u R) as K. destruct (read_prompt p u) as [r u1]. cbn [snd] in K. revert u1 K.
  apply roomy_bind; [intros u1; auto|]. intros _. apply roomy_bind; [apply roomy_interactive|]. intros _. apply roomy_lift.
Qed.
Lemma roomy_interactively d n : roomy (read_password_interactively d n).
Proof.
  intros u. unfold read_password_interactively. destruct (negb (can_read u)); [auto|]. cbv zeta.
  match goal with |- context [password_loop _ d ?msg] => generalize msg end. intros msg.
  generalize (S (input_size u)) as fuel. intros fuel. revert u. change (roomy (password_loop fuel d msg)).
  induction fuel as [|fuel IH]; [apply roomy_lift|]. cbn [password_loop]. apply roomy_bind; [apply roomy_read_password|]. intros p.
  destruct (text_eqb p []); [apply roomy_bind; [apply roomy_interactive|intros _; exact IH]|].
  apply roomy_bind.
  - destruct (is_encrypt d); [|apply roomy_ret]. apply roomy_bind; [apply roomy_read_password|]. intros q. apply roomy_ret.
  - intros [|]; (apply roomy_bind; [apply roomy_interactive|]); intros _; [apply roomy_ret|exact IH].
Qed.

Section WithFiles.
Variable sha512 : bytes -> bytes.
Variable files : text -> option bytes.

Lemma line_generate k tin tout terr u : is_word k -> k <> lit "-" ->
  exists u', parse_command_line sha512 files [lit "-g"; k] tin tout terr u =
    (Ok (GenerateKeyPair [mkKeyStreams (Some (with_extension (components k) (lit "pub"))) (OFile (components k))] false), u') /\ u_room u' = u_room u.
Proof.
  intros Wk Nk. unfold parse_command_line. eexists. split; [erewrite bind_run by (unfold lift; rewrite (parse_g k Wk); reflexivity)|].
  - erewrite bind_run by reflexivity. erewrite bind_run by reflexivity. cbn [andb].
    replace (get_mode (mkMatches [mkOcc 0 OGenKeypair None] [k])) with MGenerateKeypair by reflexivity.
    erewrite bind_run; [reflexivity|]. unfold lift, get_keypair_streams. cbn [m_free ensure bind keypair_streams].
    destruct (text_eqb k dash) eqn:Ed; [apply text_eqb_eq in Ed; contradiction|]. cbn [bind]. reflexivity.
  - reflexivity.
Qed.

Lemma line_encrypt args occs f q c tin tout terr u u2 : parse_options args = Ok (mkMatches occs [f]) -> f <> lit "-" -> trim f <> lit "-" ->
  ~ given OStream occs -> ~ given OSuffix occs -> ~ given OForce occs -> ~ given OVerbose occs -> ~ given OQuiet occs -> given OKeepInputs occs -> ~ given ODiscardInputs occs -> ~ given OFast occs ->
  get_mode (mkMatches occs [f]) = MCrypt Encrypt -> add_extension (components f) (lit "rypt") false = Ok q ->
  (forall u1, u_input u1 = u_input u -> u_room u1 = u_room u -> u_input_is_tty u1 = u_input_is_tty u -> u_output_is_tty u1 = u_output_is_tty u -> (-1 <= u_verbosity u1)%Z ->
    exists u3, get_encrypt_credential sha512 files (mkMatches occs [f]) false u1 = (Ok c, u3) /\ u_room u3 = u2) ->
  exists u', parse_command_line sha512 files args tin tout terr u = (Ok (CryptStreams [mkStream (IFile (components f)) (Ok (OFile q))] KeepFiles false (DoEncrypt c false)), u') /\ u_room u' = u2.
Proof.
  intros P Nf Nt No Ns Nfo Nv Nq K Nd Nfa M E G. unfold parse_command_line. erewrite bind_run by (unfold lift; rewrite P; reflexivity).
  assert (Z : forall o, ~ given o occs -> opt_count (mkMatches occs [f]) o = 0).
  { intros o N. apply (present_false occs [f]) in N. unfold opt_present in N. unfold opt_count. destruct (occs_of (mkMatches occs [f]) o); [reflexivity|discriminate N]. }
  rewrite (Z OVerbose Nv), (Z OQuiet Nq). change (Z.of_N 0 - Z.of_N 0)%Z with 0%Z. erewrite bind_run by reflexivity. erewrite bind_run by reflexivity.
  rewrite (proj2 (present_false occs [f] OForce) Nfo), (proj2 (present_iff occs [f] OKeepInputs) K), (proj2 (present_false occs [f] ODiscardInputs) Nd), (proj2 (present_false occs [f] OFast) Nfa).
  assert (Na : args <> []) by (intros ->; discriminate P). destruct args as [|a args]; [contradiction|]. cbn [andb]. rewrite M.
  erewrite bind_run by (unfold lift; rewrite (one_stream occs f Encrypt q); [reflexivity|assumption..]).
  destruct (one_adjusted (components f) q Encrypt tin tout terr (set_verbosity u 0)) as (u1 & Eu & A1 & A2 & A3 & A4 & A5). erewrite bind_run by exact Eu. erewrite bind_run by reflexivity.
  destruct (G u1 A1 A2 A3 A4 A5) as (u3 & Eg & Ru). exists u3. split; [|exact Ru]. erewrite bind_run; [reflexivity|]. erewrite bind_run by exact Eg. reflexivity.
Qed.
Lemma line_decrypt args occs f q cs tin tout terr u u2 : parse_options args = Ok (mkMatches occs [f]) -> f <> lit "-" -> trim f <> lit "-" ->
  ~ given OStream occs -> ~ given OSuffix occs -> ~ given OForce occs -> ~ given OVerbose occs -> ~ given OQuiet occs -> given OKeepInputs occs -> ~ given ODiscardInputs occs ->
  get_mode (mkMatches occs [f]) = MCrypt Decrypt -> remove_extension (components f) (lit "rypt") = Ok q ->
  (forall u1, u_input u1 = u_input u -> u_room u1 = u_room u -> u_input_is_tty u1 = u_input_is_tty u -> u_output_is_tty u1 = u_output_is_tty u -> (-1 <= u_verbosity u1)%Z ->
    exists u3, get_decrypt_credentials sha512 files (mkMatches occs [f]) false u1 = (Ok cs, u3) /\ u_room u3 = u2) ->
  exists u', parse_command_line sha512 files args tin tout terr u = (Ok (CryptStreams [mkStream (IFile (components f)) (Ok (OFile q))] KeepFiles false (DoDecrypt cs)), u') /\ u_room u' = u2.
Proof.
  intros P Nf Nt No Ns Nfo Nv Nq K Nd M E G. unfold parse_command_line. erewrite bind_run by (unfold lift; rewrite P; reflexivity).
  assert (Z : forall o, ~ given o occs -> opt_count (mkMatches occs [f]) o = 0).
  { intros o N. apply (present_false occs [f]) in N. unfold opt_present in N. unfold opt_count. destruct (occs_of (mkMatches occs [f]) o); [reflexivity|discriminate N]. }
  rewrite (Z OVerbose Nv), (Z OQuiet Nq). change (Z.of_N 0 - Z.of_N 0)%Z with 0%Z. erewrite bind_run by reflexivity. erewrite bind_run by reflexivity.
  rewrite (proj2 (present_false occs [f] OForce) Nfo), (proj2 (present_iff occs [f] OKeepInputs) K), (proj2 (present_false occs [f] ODiscardInputs) Nd).
  assert (Na : args <> []) by (intros ->; discriminate P). destruct args as [|a args]; [contradiction|]. cbn [andb]. rewrite M.
  erewrite bind_run by (unfold lift; rewrite (one_stream occs f Decrypt q); [reflexivity|assumption..]).
  destruct (one_adjusted (components f) q Decrypt tin tout terr (set_verbosity u 0)) as (u1 & Eu & A1 & A2 & A3 & A4 & A5). erewrite bind_run by exact Eu. erewrite bind_run by reflexivity.
  destruct (G u1 A1 A2 A3 A4 A5) as (u3 & Eg & Ru). exists u3. split; [|exact Ru]. erewrite bind_run; [reflexivity|]. erewrite bind_run by exact Eg. reflexivity.
Qed.

Ltac not_given := intros (? & Hin & Ho); cbn in Hin; repeat (destruct Hin as [<-|Hin]; [discriminate Ho|]); exact Hin.
Ltac is_given := eexists; split; [|reflexivity]; cbn; tauto.

Lemma line_public pub f q pk tin tout terr u : is_word f -> f <> lit "-" -> trim f <> lit "-" -> add_extension (components f) (lit "rypt") false = Ok q ->
  read_file_lines (files pub) (public_key_line sha512 false) = Ok [PublicKey pk] ->
  exists u', parse_command_line sha512 files (encrypt_line pub f) tin tout terr u =
    (Ok (CryptStreams [mkStream (IFile (components f)) (Ok (OFile q))] KeepFiles false (DoEncrypt (Complex [(1, PublicKey pk)] 1 1) false)), u') /\ u_room u' = u_room u.
Proof.
  intros Wf Nf Nt A R. eapply line_encrypt; [apply parse_encrypt_line, Wf|exact Nf|exact Nt|not_given|not_given|not_given|not_given|not_given| |not_given|not_given|reflexivity|exact A|].
  - eexists. split; [left; reflexivity|reflexivity].
  - intros u1 _ E _ _ _. exists u1. split; [|exact E]. unfold get_encrypt_credential. erewrite bind_run by reflexivity.
    unfold parse_complex_credential. cbn -[read_file_lines]. unfold bind_act, ensure_act, lift, ret. cbn -[read_file_lines]. unfold lift. rewrite R. reflexivity.
Qed.
Lemma line_private priv f q sk tin tout terr u : is_word f -> f <> lit "-" -> trim f <> lit "-" -> remove_extension (components f) (lit "rypt") = Ok q ->
  read_file_lines (files priv) (private_key_line sha512 false) = Ok [PrivateKey sk] ->
  exists u', parse_command_line sha512 files (decrypt_line priv f) tin tout terr u =
    (Ok (CryptStreams [mkStream (IFile (components f)) (Ok (OFile q))] KeepFiles false (DoDecrypt [PrivateKey sk])), u') /\ u_room u' = u_room u.
Proof.
  intros Wf Nf Nt A R. eapply line_decrypt; [apply parse_decrypt_line, Wf|exact Nf|exact Nt|not_given|not_given|not_given|not_given|not_given| |not_given|reflexivity|exact A|].
  - eexists. split; [right; left; reflexivity|reflexivity].
  - intros u1 _ E _ _ _. exists u1. split; [|exact E]. unfold get_decrypt_credentials. erewrite bind_run by reflexivity.
    unfold parse_complex_credential. cbn -[read_file_lines]. unfold bind_act, ensure_act, lift, ret. cbn -[read_file_lines]. unfold lift. rewrite R. reflexivity.
Qed.

Definition typist (u : ui) : Prop := u_room u = None /\ u_input_is_tty u = true /\ u_output_is_tty u = true.
Lemma line_typed_encrypt f q p s rs s' tin tout terr u : is_word f -> f <> lit "-" -> trim f <> lit "-" -> add_extension (components f) (lit "rypt") false = Ok q ->
  typist u -> u_input u = Some s -> replies s rs s' -> accepts true rs p ->
  exists u', parse_command_line sha512 files (encrypt_typed f) tin tout terr u =
    (Ok (CryptStreams [mkStream (IFile (components f)) (Ok (OFile q))] KeepFiles false (DoEncrypt (Complex [(1, Password (utf8 p))] 1 1) false)), u') /\ u_room u' = None.
Proof.
  intros Wf Nf Nt A (T1 & T2 & T3) Iu Rs Ac. eapply line_encrypt; [apply parse_encrypt_typed, Wf|exact Nf|exact Nt|not_given|not_given|not_given|not_given|not_given| |not_given|not_given|reflexivity|exact A|].
  - eexists. split; [left; reflexivity|reflexivity].
  - intros u1 E1 E2 E3 E4 E5. rewrite Iu in E1. rewrite T1 in E2. destruct (C38_every_confirmed_password_is_accepted Encrypt None u1 s rs p s') as (u3 & H & _); try assumption.
    { split; [congruence|]. split; [congruence|]. split; [congruence|exact E5]. }
    exists u3. split; [|change u3 with (snd (@Ok cerr cred (Password (utf8 p)), u3)); rewrite <- H; apply roomy_interactively, E2].
    unfold get_encrypt_credential. erewrite bind_run by reflexivity.
    unfold parse_complex_credential. cbn -[read_password_interactively]. unfold bind_act, ensure_act, lift, ret. cbn -[read_password_interactively]. rewrite H. reflexivity.
Qed.
Lemma line_typed_decrypt f q p s rs s' tin tout terr u : is_word f -> f <> lit "-" -> trim f <> lit "-" -> remove_extension (components f) (lit "rypt") = Ok q ->
  typist u -> u_input u = Some s -> replies s rs s' -> accepts false rs p ->
  exists u', parse_command_line sha512 files (decrypt_typed f) tin tout terr u =
    (Ok (CryptStreams [mkStream (IFile (components f)) (Ok (OFile q))] KeepFiles false (DoDecrypt [Password (utf8 p)])), u') /\ u_room u' = None.
Proof.
  intros Wf Nf Nt A (T1 & T2 & T3) Iu Rs Ac. eapply line_decrypt; [apply parse_decrypt_typed, Wf|exact Nf|exact Nt|not_given|not_given|not_given|not_given|not_given| |not_given|reflexivity|exact A|].
  - eexists. split; [right; left; reflexivity|reflexivity].
  - intros u1 E1 E2 E3 E4 E5. rewrite Iu in E1. rewrite T1 in E2. destruct (C38_every_confirmed_password_is_accepted Decrypt None u1 s rs p s') as (u3 & H & _); try assumption.
    { split; [congruence|]. split; [congruence|]. split; [congruence|exact E5]. }
    exists u3. split; [|change u3 with (snd (@Ok cerr cred (Password (utf8 p)), u3)); rewrite <- H; apply roomy_interactively, E2].
    unfold get_decrypt_credentials. erewrite bind_run by reflexivity.
    unfold parse_complex_credential. cbn -[read_password_interactively]. unfold bind_act, ensure_act, lift, ret. cbn -[read_password_interactively]. rewrite H. reflexivity.
Qed.
End WithFiles.

(** Filters that succeed (C80). *)
From Coq.Strings Require Import Byte String.
From Coq Require Import List NArith ZArith Bool PeanoNat Lia.
From Verif Require Import Base BaseFacts Shamir Errors Io HeaderIo HeaderIoSpec StreamSpec Text TextProofs TextProofs2 Util CliErrors Getopts Crypto HeaderCrypto CredSpec FileCrypto KeyFiles KeyProofs Ui UiSpec UiProofs Paths PathSpec PathProofs CliCreds Cli CliSpec CliProofs CliProofs2 CliProofs3 CliProofs4
  SettingsProofs OptSpec OptProofs CmdSpec CmdProofs Progress Fs Commands FsSpec FsProofs10 FsProofs12 FlowSpec FlowProofs FlowProofs2 FlowProofs3 FlowProofs4 HeaderCryptoProofs4 PipeSpec PipeProofs PipeProofs2 SizeSpec SizeProofs PropSize HeaderCryptoProofs PropCommandLine PropUi PropFs2.
Import ListNotations.
Local Open Scope N_scope.

Section WithFiles.
Variable sha512 : bytes -> bytes.
Variable files : text -> option bytes.

Lemma stream_adjusted d tin tout terr u : match d with Encrypt => tout = false | Decrypt => tin = false end ->
  exists u', check_and_adjust_ui_verbosity 0 [mkStream IStdin (Ok OStdout)] d false tin tout terr u = (Ok tt, u') /\
    u_input u' = u_input u /\ u_room u' = u_room u.
Proof.
  intros H. unfold check_and_adjust_ui_verbosity. cbn [is_stdin is_stdout s_input s_output andb negb is_encrypt].
  destruct d; subst; cbn [is_encrypt negb andb orb]; rewrite ?andb_false_r, ?andb_true_r; cbn [andb]; rewrite Z.eqb_refl; (eexists; split; [reflexivity|split; reflexivity]).
Qed.

Lemma line_stream d args occs dir tin tout terr u u2 : parse_options args = Ok (mkMatches occs []) -> args <> [] ->
  ~ given OForce occs -> ~ given OVerbose occs -> ~ given OQuiet occs -> ~ given OKeepInputs occs -> ~ given ODiscardInputs occs ->
  get_mode (mkMatches occs []) = MCrypt d -> match d with Encrypt => tout = false | Decrypt => tin = false end ->
  (forall u1, u_input u1 = u_input u -> u_room u1 = u_room u ->
    match d with
    | Encrypt => exists c, get_encrypt_credential sha512 files (mkMatches occs []) false u1 = (Ok c, u2 u1) /\ dir = DoEncrypt c (opt_present (mkMatches occs []) OFast)
    | Decrypt => exists cs, get_decrypt_credentials sha512 files (mkMatches occs []) false u1 = (Ok cs, u2 u1) /\ dir = DoDecrypt cs
    end) ->
  exists u1, u_input u1 = u_input u /\ u_room u1 = u_room u /\
    parse_command_line sha512 files args tin tout terr u = (Ok (CryptStreams [mkStream IStdin (Ok OStdout)] PromptUser false dir), u2 u1).
Proof.
  intros P Na Nfo Nv Nq Nk Nd M T G. unfold parse_command_line. erewrite bind_run by (unfold lift; rewrite P; reflexivity).
  assert (Z : forall o, ~ given o occs -> opt_count (mkMatches occs []) o = 0).
  { intros o N. apply (present_false occs []) in N. unfold opt_present in N. unfold opt_count. destruct (occs_of (mkMatches occs []) o); [reflexivity|discriminate N]. }
  rewrite (Z OVerbose Nv), (Z OQuiet Nq). change (Z.of_N 0 - Z.of_N 0)%Z with 0%Z. erewrite bind_run by reflexivity. erewrite bind_run by reflexivity.
  rewrite (proj2 (present_false occs [] OForce) Nfo), (proj2 (present_false occs [] OKeepInputs) Nk), (proj2 (present_false occs [] ODiscardInputs) Nd).
  destruct args as [|a args]; [contradiction|]. cbn [andb]. rewrite M.
  erewrite bind_run by (unfold lift, get_input_output_streams; cbn [m_free]; rewrite orb_true_r; reflexivity).
  destruct (stream_adjusted d tin tout terr (set_verbosity u 0) T) as (u1 & Eu & A1 & A2). erewrite bind_run by exact Eu. erewrite bind_run by reflexivity.
  exists u1. split; [exact A1|]. split; [exact A2|]. specialize (G u1 A1 A2).
  destruct d; destruct G as (c & Eg & ->); (erewrite bind_run; [reflexivity|]); (erewrite bind_run by exact Eg); reflexivity.
Qed.

Ltac not_given := intros (? & Hin & Ho); cbn in Hin; repeat (destruct Hin as [<-|Hin]; [discriminate Ho|]); exact Hin.

Lemma parse_public pub : parse_options [lit "--public-key"; pub] = Ok (mkMatches [mkOcc 0 OPublicKey (Some pub)] []).
Proof.
  apply options_read. cbn [m_occs m_free]. split; [|not_twice]. apply (means_value 0 OPublicKey "public-key"); [left; reflexivity|exact I|]. constructor.
Qed.
Lemma parse_private priv : parse_options [lit "-d"; lit "--private-key"; priv] = Ok (mkMatches [mkOcc 0 ODecrypt None; mkOcc 1 OPrivateKey (Some priv)] []).
Proof.
  apply options_read. cbn [m_occs m_free]. split; [|not_twice]. apply (means_flag 0 ODecrypt "d"); [one_letter|].
  apply (means_value 1 OPrivateKey "private-key"); [left; reflexivity|exact I|]. constructor.
Qed.
Lemma parse_passwords f k : parse_options [lit "--password-file"; f; lit "--key-threshold"; k] = Ok (mkMatches [mkOcc 0 OPasswordFile (Some f); mkOcc 1 OKeyThreshold (Some k)] []).
Proof.
  apply options_read. cbn [m_occs m_free]. split; [|not_twice]. apply (means_value 0 OPasswordFile "password-file"); [left; reflexivity|exact I|].
  apply (means_value 1 OKeyThreshold "key-threshold"); [left; reflexivity|exact I|]. constructor.
Qed.
Lemma parse_password_file f : parse_options [lit "-d"; lit "--password-file"; f] = Ok (mkMatches [mkOcc 0 ODecrypt None; mkOcc 1 OPasswordFile (Some f)] []).
Proof.
  apply options_read. cbn [m_occs m_free]. split; [|not_twice]. apply (means_flag 0 ODecrypt "d"); [one_letter|].
  apply (means_value 1 OPasswordFile "password-file"); [left; reflexivity|exact I|]. constructor.
Qed.

Definition same (u : ui) : ui := u.

Lemma pipe_public pub pk tin terr u : read_file_lines (files pub) (public_key_line sha512 false) = Ok [PublicKey pk] ->
  exists u1, u_input u1 = u_input u /\ u_room u1 = u_room u /\
    parse_command_line sha512 files [lit "--public-key"; pub] tin false terr u = (Ok (CryptStreams [mkStream IStdin (Ok OStdout)] PromptUser false (DoEncrypt (Complex [(1, PublicKey pk)] 1 1) false)), u1).
Proof.
  intros R. apply (line_stream Encrypt _ _ _ _ _ _ _ same (parse_public pub)); [discriminate|not_given|not_given|not_given|not_given|not_given|reflexivity|reflexivity|].
  intros u1 _ _. eexists. split; [|reflexivity]. unfold get_encrypt_credential. erewrite bind_run by reflexivity.
  unfold parse_complex_credential. cbn -[read_file_lines]. unfold bind_act, ensure_act, lift, ret. cbn -[read_file_lines]. unfold lift. rewrite R. reflexivity.
Qed.
Lemma pipe_private priv sk tout terr u : read_file_lines (files priv) (private_key_line sha512 false) = Ok [PrivateKey sk] ->
  exists u1, u_input u1 = u_input u /\ u_room u1 = u_room u /\
    parse_command_line sha512 files [lit "-d"; lit "--private-key"; priv] false tout terr u = (Ok (CryptStreams [mkStream IStdin (Ok OStdout)] PromptUser false (DoDecrypt [PrivateKey sk])), u1).
Proof.
  intros R. apply (line_stream Decrypt _ _ _ _ _ _ _ same (parse_private priv)); [discriminate|not_given|not_given|not_given|not_given|not_given|reflexivity|reflexivity|].
  intros u1 _ _. eexists. split; [|reflexivity]. unfold get_decrypt_credentials. erewrite bind_run by reflexivity.
  unfold parse_complex_credential. cbn -[read_file_lines]. unfold bind_act, ensure_act, lift, ret. cbn -[read_file_lines]. unfold lift. rewrite R. reflexivity.
Qed.

Lemma tokens_passwords f v k : decimal v k -> extract_tokens (mkMatches [mkOcc 0 OPasswordFile (Some f); mkOcc 1 OKeyThreshold (Some v)] []) = Ok [PasswordFile f; KeyThreshold k].
Proof.
  intros D. apply parse_usize_iff in D. unfold extract_tokens.
  set (m := mkMatches _ _).
  replace (flat_map (fun '(o, t) => map (fun pos => (pos, t)) (opt_positions m o)) tokens_without_value) with (@nil (nat * token)) by reflexivity.
  replace (flat_map (fun '(o, cred) => map (fun '(pos, val) => (pos, cred val)) (opt_strs_pos m o)) tokens_with_str_value) with [(0%nat, PasswordFile f)] by reflexivity.
  unfold tokens_with_int_value. cbn [map_out].
  replace (opt_strs_pos m OKeyThreshold) with [(1%nat, v)] by reflexivity. replace (opt_strs_pos m OKeyShares) with (@nil (nat * text)) by reflexivity.
  cbn [map_out bind]. rewrite D. reflexivity.
Qed.

Lemma map_ne {A B} (f : A -> B) l : l <> [] -> match map f l with [] => false | _ => true end = true.
Proof. destruct l; [contradiction|reflexivity]. Qed.

Lemma credential_passwords f v k ps u : decimal v k -> read_file_lines (files f) password_line = Ok (map Password ps) -> ps <> [] -> lenN ps < 2 ^ 64 -> 1 <= k <= lenN ps ->
  get_encrypt_credential sha512 files (mkMatches [mkOcc 0 OPasswordFile (Some f); mkOcc 1 OKeyThreshold (Some v)] []) false u = (Ok (Complex (map (fun p => (1, Password p)) ps) (lenN ps) k), u).
Proof.
  intros D R Np Ln Lk. unfold get_encrypt_credential. erewrite bind_run by (unfold lift; rewrite (tokens_passwords f v k D); reflexivity).
  cbn [default_tokens]. unfold parse_complex_credential. cbn [length]. rewrite (bind_run _ _ u (Complex (map (fun p => (1, Password p)) ps) (lenN ps) k, []) u); [reflexivity|].
  cbn [parse_loop]. erewrite bind_run by reflexivity. erewrite bind_run by reflexivity. cbn [read_token].
  erewrite bind_run by (unfold lift; rewrite R; reflexivity).
  erewrite bind_run. 2:{ unfold add_creds. erewrite bind_run by (unfold ensure_act, lift; rewrite (map_ne Password ps Np); reflexivity). reflexivity. }
  cbn [initial_state p_sub_creds p_num_shares p_next_key_shares p_threshold].
  erewrite bind_run by reflexivity. erewrite bind_run by reflexivity. erewrite bind_run by reflexivity.
  cbn [p_sub_creds p_num_shares p_next_key_shares p_threshold].
  assert (E : wrap64 (0 + wrap64 (1 * lenN (map Password ps))) = lenN ps).
  { change (2 ^ 64) with two64 in Ln. unfold lenN in *. rewrite map_length, N.mul_1_l, N.add_0_l, !HeaderCryptoProofs.wrap64_small; [reflexivity|exact Ln|rewrite HeaderCryptoProofs.wrap64_small by exact Ln; exact Ln]. }
  rewrite E, map_map. cbn [app]. rewrite (bind_run _ _ u (Complex (map (fun p => (1, Password p)) ps) (lenN ps) k) u); [reflexivity|].
  unfold lift, finish_group. cbn [p_sub_creds p_num_shares p_next_key_shares p_threshold].
  destruct (N.ltb_spec 0 (lenN ps)); [|lia]. destruct (N.ltb_spec 0 k); [|lia]. destruct (N.leb_spec k (lenN ps)); [|lia]. reflexivity.
Qed.

Lemma credentials_file f ps u : read_file_lines (files f) password_line = Ok (map Password ps) -> ps <> [] -> lenN ps < 2 ^ 64 ->
  get_decrypt_credentials sha512 files (mkMatches [mkOcc 0 ODecrypt None; mkOcc 1 OPasswordFile (Some f)] []) false u = (Ok (map Password ps), u).
Proof.
  intros R Np Ln. unfold get_decrypt_credentials. rewrite (bind_run _ _ u [PasswordFile f] u) by reflexivity. cbn [default_tokens].
  rewrite (bind_run _ _ u (Complex (map (fun p => (1, Password p)) ps) (lenN ps) 1) u).
  2:{ cbn [default_tokens map snd]. unfold parse_complex_credential. cbn [length]. rewrite (bind_run _ _ u (Complex (map (fun p => (1, Password p)) ps) (lenN ps) 1, []) u); [reflexivity|].
      cbn [parse_loop]. erewrite bind_run by reflexivity. erewrite bind_run by reflexivity. cbn [read_token].
      erewrite bind_run by (unfold lift; rewrite R; reflexivity).
      erewrite bind_run. 2:{ unfold add_creds. erewrite bind_run by (unfold ensure_act, lift; rewrite (map_ne Password ps Np); reflexivity). reflexivity. }
      cbn [initial_state p_sub_creds p_num_shares p_next_key_shares p_threshold].
      assert (E : wrap64 (0 + wrap64 (1 * lenN (map Password ps))) = lenN ps).
      { change (2 ^ 64) with two64 in Ln. unfold lenN in *. rewrite map_length, N.mul_1_l, N.add_0_l, !HeaderCryptoProofs.wrap64_small; [reflexivity|exact Ln|rewrite HeaderCryptoProofs.wrap64_small by exact Ln; exact Ln]. }
      rewrite E, map_map. cbn [app]. rewrite (bind_run _ _ u (Complex (map (fun p => (1, Password p)) ps) (lenN ps) 1) u); [reflexivity|].
      unfold lift, finish_group. cbn [p_sub_creds p_num_shares p_next_key_shares p_threshold].
      assert (1 <= lenN ps) by (destruct ps; [contradiction|unfold lenN; cbn [length]; lia]).
      destruct (N.ltb_spec 0 (lenN ps)); [|lia]. destruct (N.leb_spec 1 (lenN ps)); [|lia]. reflexivity. }
  cbn [fst]. assert (1 <= lenN ps) by (destruct ps; [contradiction|unfold lenN; cbn [length]; lia]).
  destruct (N.eqb_spec (lenN ps) 0); [lia|]. erewrite bind_run by reflexivity. erewrite bind_run by reflexivity. unfold lift. f_equal.
  clear. induction ps as [|p ps IH]; [reflexivity|]. cbn [map map_out]. cbn [assert N.eqb Pos.eqb bind]. rewrite IH. reflexivity.
Qed.

Lemma pipe_passwords f v k ps tin terr u : decimal v k -> read_file_lines (files f) password_line = Ok (map Password ps) -> ps <> [] -> lenN ps < 2 ^ 64 -> 1 <= k <= lenN ps ->
  exists u1, u_input u1 = u_input u /\ u_room u1 = u_room u /\
    parse_command_line sha512 files [lit "--password-file"; f; lit "--key-threshold"; v] tin false terr u =
      (Ok (CryptStreams [mkStream IStdin (Ok OStdout)] PromptUser false (DoEncrypt (Complex (map (fun p => (1, Password p)) ps) (lenN ps) k) false)), u1).
Proof.
  intros D R Np Ln Lk. apply (line_stream Encrypt _ _ _ _ _ _ _ same (parse_passwords f v)); [discriminate|not_given|not_given|not_given|not_given|not_given|reflexivity|reflexivity|].
  intros u1 _ _. eexists. split; [apply (credential_passwords f v k ps); assumption|reflexivity].
Qed.
Lemma pipe_password_file f ps tout terr u : read_file_lines (files f) password_line = Ok (map Password ps) -> ps <> [] -> lenN ps < 2 ^ 64 ->
  exists u1, u_input u1 = u_input u /\ u_room u1 = u_room u /\
    parse_command_line sha512 files [lit "-d"; lit "--password-file"; f] false tout terr u =
      (Ok (CryptStreams [mkStream IStdin (Ok OStdout)] PromptUser false (DoDecrypt (map Password ps))), u1).
Proof.
  intros R Np Ln. apply (line_stream Decrypt _ _ _ _ _ _ _ same (parse_password_file f)); [discriminate|not_given|not_given|not_given|not_given|not_given|reflexivity|reflexivity|].
  intros u1 _ _. eexists. split; [apply (credentials_file f ps); assumption|reflexivity].
Qed.
End WithFiles.

Section Runs.
Variables (lib : crypto_lib) (sha512 : bytes -> bytes).
Hypothesis Hl : lib_ok lib.

(** A filter on a working machine. *)
Lemma filter_succeeds (e : names) files args tin tout terr w status w' s d u1 :
  faulty e = false -> stalls e = false -> u_room (w_ui w) = None -> u_input (w_ui w) = Some s -> ends_in_error s = false ->
  convertible lib d (flat s) ->
  u_input u1 = u_input (w_ui w) -> u_room u1 = u_room (w_ui w) ->
  parse_command_line sha512 files args tin tout terr (w_ui w) = (Ok (CryptStreams [mkStream IStdin (Ok OStdout)] PromptUser false d), u1) ->
  main e lib sha512 files args tin tout terr w status w' -> status = 0.
Proof.
  intros Nf Ns Ro Iu Ne Cv E1 E2 Ep (r & w1 & H & K). assert (r = Ok tt) as ->; [|apply K].
  destruct H as [(c' & w2 & [E ->] & H)|[(er & [E _] & _)|([E _] & _)]]; rewrite Ep in E; try discriminate E. injection E as ->. rewrite Ep in H. cbn [snd run_command] in H.
  refine (C56_streams_do_not_fail_without_reason e lib IStdin (flat s) PromptUser d (set_ui w u1) r w1 Nf Ns _ _ _ Cv H).
  - cbn. congruence.
  - discriminate.
  - exists s. cbn. split; [congruence|]. split; [exact Ne|reflexivity].
Qed.

Lemma passwords_convertible c0 ps k b : lib ChaCha20Poly1305Ietf = Some c0 -> 1 <= k <= lenN ps -> lenN ps <= 255 ->
  convertible lib (DoEncrypt (Complex (map (fun p => (1, Password p)) ps) (lenN ps) k) false) b.
Proof.
  intros E0 Lk Ln.
  assert (Hw : wf_cred (Complex (map (fun p => (1, Password p)) ps) (lenN ps) k)) by (apply wf_passwords; eapply N.le_lt_trans; [exact Ln|reflexivity]).
  refine (proj1 (C81_what_can_be_encrypted lib c0 _ _ _ false b Hl Hw E0 _) _).
  - intros seed. cbn [realisable]. split; [lia|]. split; [lia|]. split; [lia|]. split; [lia|].
    clear. induction ps as [|p ps IH]; cbn [map fold_right]; [exact I|]. split; [exact I|exact IH].
  - unfold header_size. rewrite key_size_complex. replace (map (fun p => (1, Password p)) ps) with (map (fun c => (1, c)) (map Password ps)) by apply map_map.
    rewrite flat_sum by (intros c Ic; apply in_map_iff in Ic as (p & <- & _); discriminate).
    assert (El : lenN (map Password ps) = lenN ps) by (unfold lenN; now rewrite map_length). rewrite El.
    change (field 32) with 34. change (field 61) with 63.
    assert (Dg : forall n, n <= 16000 -> SizeSpec.digits n <= 2).
    { intros n H. unfold SizeSpec.digits. assert (N.size n <= 14).
      { destruct (N.eq_dec n 0) as [->|Z]; [cbn; lia|]. rewrite N.size_log2 by exact Z. assert (N.log2 n < 14) by (apply N.log2_lt_pow2; [lia|change (2 ^ 14) with 16384; lia]). lia. }
      assert ((N.size n + 6) / 7 < 3) by (apply N.div_lt_upper_bound; lia). lia. }
    assert (Ct : count k <= 3) by (unfold count; destruct (k <=? 1); [lia|]; specialize (Dg k ltac:(lia)); lia).
    unfold field. pose proof (Dg (count k + 52 * lenN ps) ltac:(lia)). lia.
Qed.
End Runs.

(** C33 (file names), C34 (terminals), C35 (modes), C53 (progress on a terminal). *)
From Coq.Strings Require Import Byte String.
From Coq Require Import List NArith ZArith Bool PeanoNat Lia.
From Verif Require Import Base Text Util CliErrors Getopts Crypto HeaderCrypto KeyFiles Ui CliCreds CliSpec Paths Cli PathSpec PathProofs CliProofs3 SettingsProofs PropCli RefuseProofs.
Import ListNotations.
Local Open Scope N_scope.

(** ** C33 *)

(** The encrypted file is next to the original and is called as it with a dot and the suffix behind. *)
Theorem C33_encrypted_name : forall m force ss p d n q,
  get_input_output_streams m Encrypt force = Ok ss -> In (mkStream (IFile p) (Ok (OFile q))) ss ->
  is_file p d n -> ~ ends_in_dot n -> ~ In 47 (get_encrypted_file_extension m) ->
  get_encrypted_file_extension m <> [] \/ has_inner_dot n ->
  is_file q d (n ++ [46] ++ get_encrypted_file_extension m).
Proof.
  intros m force ss p d n q H I F Nd Ns Hs. destruct (file_stream _ _ _ _ _ _ H I) as [O E]. pose proof (path_ok_name _ _ _ O F) as On.
  unfold is_file in *. subst p. exact (add_extension_name d n _ force q On Nd Ns Hs E).
Qed.
Print Assumptions C33_encrypted_name.

(** Decrypting it with the same suffix writes the original path. *)
Theorem C33_names_come_back : forall m force ss p d n q m' force' ss' s',
  get_input_output_streams m Encrypt force = Ok ss -> In (mkStream (IFile p) (Ok (OFile q))) ss ->
  is_file p d n -> ~ ends_in_dot n -> ~ In 47 (get_encrypted_file_extension m) -> ~ In 46 (get_encrypted_file_extension m) ->
  get_encrypted_file_extension m <> [] \/ has_inner_dot n ->
  get_input_output_streams m' Decrypt force' = Ok ss' -> get_encrypted_file_extension m' = get_encrypted_file_extension m ->
  In s' ss' -> s_input s' = IFile q -> s_output s' = Ok (OFile p).
Proof.
  intros m force ss p d n q m' force' ss' s' H I F Nd Ns Ndot Hs H' Em I' Ei.
  pose proof (C33_encrypted_name _ _ _ _ _ _ _ H I F Nd Ns Hs) as Eq. destruct (file_stream _ _ _ _ _ _ H I) as [O _].
  pose proof (path_ok_name _ _ _ O F) as On.
  destruct (streams_inv _ _ _ _ _ H' I') as [(p' & E1 & _ & E2)|(_ & _ & [E|(? & E)])]; [|congruence..].
  assert (p' = q) by congruence. subst p'. rewrite E2, Em. unfold is_file in *. subst p q. cbn [app].
  rewrite remove_extension_run by (try exact Ndot; apply On). unfold bind. rewrite push_name by exact On. reflexivity.
Qed.
Print Assumptions C33_names_come_back.

(** Different inputs get different outputs, none of which is its input. *)
Theorem C33_encrypted_names_differ : forall m force ss p1 p2 d1 d2 n1 n2 q1 q2,
  get_input_output_streams m Encrypt force = Ok ss ->
  In (mkStream (IFile p1) (Ok (OFile q1))) ss -> In (mkStream (IFile p2) (Ok (OFile q2))) ss ->
  is_file p1 d1 n1 -> is_file p2 d2 n2 -> ~ ends_in_dot n1 -> ~ ends_in_dot n2 ->
  ~ In 47 (get_encrypted_file_extension m) -> get_encrypted_file_extension m <> [] ->
  q1 <> p1 /\ (q1 = q2 -> p1 = p2).
Proof.
  intros m force ss p1 p2 d1 d2 n1 n2 q1 q2 H I1 I2 F1 F2 N1 N2 Ns Hs.
  pose proof (C33_encrypted_name _ _ _ _ _ _ _ H I1 F1 N1 Ns (or_introl Hs)) as E1.
  pose proof (C33_encrypted_name _ _ _ _ _ _ _ H I2 F2 N2 Ns (or_introl Hs)) as E2. unfold is_file in *. subst. split.
  - intros E. apply app_inj_tail in E as [_ E]. injection E as E. apply (f_equal (@length N)) in E. rewrite !app_length in E. cbn [length] in E. lia.
  - intros E. apply app_inj_tail in E as [-> E]. injection E as E. apply app_inv_tail in E as ->. reflexivity.
Qed.
Print Assumptions C33_encrypted_names_differ.

(** Decryption only accepts names with the suffix, and takes it off. *)
Theorem C33_decrypted_name : forall m force ss p q,
  get_input_output_streams m Decrypt force = Ok ss -> In (mkStream (IFile p) (Ok (OFile q))) ss ->
  exists d n, is_file p d (n ++ [46] ++ get_encrypted_file_extension m) /\ n <> [] /\ q <> p /\
  (n <> [46] -> n <> [46; 46] -> is_file q d n).
Proof.
  intros m force ss p q H I. destruct (file_stream _ _ _ _ _ _ H I) as [O E]. destruct (remove_extension_inv _ _ _ E) as (d & b & F & Nb & Ns & ->).
  pose proof (path_ok_name _ _ _ O F) as On. unfold is_file in *. exists d, b. split; [exact F|]. split; [exact Nb|].
  assert (Sl : ~ In 47 b) by (intros X; apply On, in_or_app; left; exact X).
  assert (P : b <> [46] -> b <> [46; 46] -> push d b = d ++ [Normal b]) by (intros A B; apply push_name; repeat split; assumption).
  split; [|exact P]. subst p.
  destruct (list_eq_dec N.eq_dec b [46]) as [->|A].
  - unfold push. destruct d as [|c d]; [discriminate|]. cbn -[app]. rewrite app_nil_r. intros X. apply (f_equal (@length component)) in X. rewrite app_length in X. cbn in X. lia.
  - destruct (list_eq_dec N.eq_dec b [46; 46]) as [->|B].
    + unfold push. destruct d as [|c d]; [discriminate|]. cbn -[app]. intros X. apply app_inj_tail in X as [_ X]. discriminate X.
    + rewrite P by assumption. intros X. apply app_inj_tail in X as [_ X]. injection X as X. apply (f_equal (@length N)) in X. rewrite app_length in X. cbn in X. lia.
Qed.
Print Assumptions C33_decrypted_name.

Theorem C33_decrypted_names_differ : forall m force ss p1 p2 q d1 d2 n1 n2,
  get_input_output_streams m Decrypt force = Ok ss ->
  In (mkStream (IFile p1) (Ok (OFile q))) ss -> In (mkStream (IFile p2) (Ok (OFile q))) ss ->
  is_file p1 d1 n1 -> is_file p2 d2 n2 -> ~ starts_with_two_dots n1 -> ~ starts_with_two_dots n2 -> p1 = p2.
Proof.
  intros m force ss p1 p2 q d1 d2 n1 n2 H I1 I2 F1 F2 T1 T2.
  destruct (C33_decrypted_name _ _ _ _ _ H I1) as (e1 & b1 & G1 & _ & _ & Q1). destruct (C33_decrypted_name _ _ _ _ _ H I2) as (e2 & b2 & G2 & _ & _ & Q2).
  unfold is_file in *. subst p1 p2. apply app_inj_tail in G1 as [-> G1]. apply app_inj_tail in G2 as [-> G2]. injection G1 as ->. injection G2 as ->.
  assert (e1 ++ [Normal b1] = e2 ++ [Normal b2]) as E.
  { rewrite <- Q1, <- Q2; [reflexivity|..]; intros ->; (apply T1 + apply T2); eexists; reflexivity. }
  apply app_inj_tail in E as [-> E]. injection E as ->. reflexivity.
Qed.
Print Assumptions C33_decrypted_names_differ.

(** Without the condition on dots: "a." and "a" are both encrypted to "a.rypt". *)
Theorem C33_encrypted_names_differ_refuted : exists args m ss p1 p2 q,
  parse_options args = Ok m /\ get_input_output_streams m Encrypt false = Ok ss /\
  In (mkStream (IFile p1) (Ok (OFile q))) ss /\ In (mkStream (IFile p2) (Ok (OFile q))) ss /\ p1 <> p2.
Proof.
  exists (map lit ["a"; "a."]%string), (mkMatches [] (map lit ["a"; "a."]%string)).
  eexists. exists [Normal (lit "a")], [Normal (lit "a.")], [Normal (lit "a.rypt")].
  split; [vm_compute; reflexivity|]. split; [vm_compute; reflexivity|]. split; [left; vm_compute; reflexivity|]. split; [right; left; vm_compute; reflexivity|]. discriminate.
Qed.
Print Assumptions C33_encrypted_names_differ_refuted.

(** Without the condition on the suffix: rypt -f -S "" a writes over its input. *)
Theorem C33_output_is_not_the_input_refuted : exists args m ss p,
  parse_options args = Ok m /\ get_input_output_streams m Encrypt true = Ok ss /\ In (mkStream (IFile p) (Ok (OFile p))) ss.
Proof.
  exists (map lit ["-f"; "-S"; ""; "a"]%string). eexists. eexists. exists [Normal (lit "a")].
  split; [vm_compute; reflexivity|]. split; [vm_compute; reflexivity|]. left. vm_compute. reflexivity.
Qed.
Print Assumptions C33_output_is_not_the_input_refuted.

(** A suffix with a dot inside: the encrypted name is refused on decryption. *)
Theorem C33_names_come_back_refuted : exists args args' m m' ss q e,
  parse_options args = Ok m /\ parse_options args' = Ok m' /\
  get_encrypted_file_extension m = lit "tar.rypt" /\ get_encrypted_file_extension m' = lit "tar.rypt" /\
  get_input_output_streams m Encrypt false = Ok ss /\ In (mkStream (IFile [Normal (lit "a")]) (Ok (OFile q))) ss /\
  get_input_output_streams m' Decrypt false = Ok [mkStream (IFile q) (Err e)].
Proof.
  exists (map lit ["-S"; "tar.rypt"; "a"]%string), (map lit ["-d"; "-S"; "tar.rypt"; "a.tar.rypt"]%string). do 5 eexists.
  split; [vm_compute; reflexivity|]. split; [vm_compute; reflexivity|]. split; [vm_compute; reflexivity|]. split; [vm_compute; reflexivity|].
  split; [vm_compute; reflexivity|]. split; [left; reflexivity|]. vm_compute. reflexivity.
Qed.
Print Assumptions C33_names_come_back_refuted.

(** ** C34 *)

Theorem C34_no_ciphertext_on_a_terminal : forall sha512 files args stdin_is_tty stdout_is_tty stderr_is_tty u c u',
  parse_command_line sha512 files args stdin_is_tty stdout_is_tty stderr_is_tty u = (Ok c, u') ->
  (ciphertext_to_stdout c -> stdout_is_tty = true -> exists m, parse_options args = Ok m /\ opt_present m OForce = true) /\
  (ciphertext_from_stdin c -> stdin_is_tty = true -> exists m, parse_options args = Ok m /\ opt_present m OForce = true).
Proof.
  intros sha512 files args tin tout terr u c u' H. destruct (command_line_inv _ _ _ _ _ _ _ _ _ H) as (m & Hm & _ & C). split.
  - intros (ss & po & fo & cr & fa & s & E & Is & Eo) T. destruct (C _ _ _ _ E) as (d & u1 & u2 & Ed & Ef & Hs & Hc & _).
    pose proof (proj2 Ed (ex_intro _ cr (ex_intro _ fa eq_refl))) as ->. exists m. split; [exact Hm|]. rewrite <- Ef.
    exact (proj1 (proj2 (check_inv _ _ _ _ _ _ _ _ _ Hc)) s (only_one _ _ _ _ _ Hs Is (or_intror Eo)) Eo eq_refl T).
  - intros (ss & po & fo & cs & s & E & Is & Ei) T. destruct (C _ _ _ _ E) as (d & u1 & u2 & Ed & Ef & Hs & Hc & _).
    assert (d = Decrypt) as -> by (destruct d; [destruct (proj1 Ed eq_refl) as (? & ? & X); discriminate X|reflexivity]).
    exists m. split; [exact Hm|]. rewrite <- Ef.
    exact (proj1 (check_inv _ _ _ _ _ _ _ _ _ Hc) s (only_one _ _ _ _ _ Hs Is (or_introl Ei)) Ei eq_refl T).
Qed.
Print Assumptions C34_no_ciphertext_on_a_terminal.

(** The other way round: a command line is refused for a terminal only if encrypted data would really be read from it, that is
    for decryption without force and with no file or a dash, or really be written to it, that is for encryption without
    force and with no file, a dash or a stream. *)
Theorem C34_refused_only_for_terminals : forall sha512 files args os stdin_is_tty stdout_is_tty stderr_is_tty u u',
  lists args os ->
  (parse_command_line sha512 files args stdin_is_tty stdout_is_tty stderr_is_tty u = (Err CReadFromTerminal, u') ->
    stdin_is_tty = true /\ last_mode (map fst os) = MCrypt Decrypt /\
    exists m, parse_options args = Ok m /\ opt_present m OForce = false /\ (m_free m = [] \/ m_free m = [[45]])) /\
  (parse_command_line sha512 files args stdin_is_tty stdout_is_tty stderr_is_tty u = (Err CWriteToTerminal, u') ->
    stdout_is_tty = true /\ last_mode (map fst os) = MCrypt Encrypt /\
    exists m, parse_options args = Ok m /\ opt_present m OForce = false /\
      (m_free m = [] \/ m_free m = [[45]] \/ exists a, m_free m = [a] /\ opt_present m OStream = true)).
Proof.
  intros sha512 files args os tin tout terr u u' L. split; intros H.
  - destruct (refused _ _ _ _ _ _ _ _ _ H) as (m & d & ss & v & u1 & u2 & Hm & Em & Hs & Hc); [left; reflexivity|].
    unfold check_and_adjust_ui_verbosity in Hc. cbv zeta in Hc.
    destruct (tin && _ && _) eqn:E in Hc; [clear Hc|destruct (_ && _ && _) in Hc; [discriminate Hc|destruct (v =? 0)%Z in Hc; discriminate Hc]].
    apply andb_true_iff in E as [E Ef]. apply andb_true_iff in E as [Et E]. apply andb_true_iff in E as [Ei Ed]. apply negb_true_iff in Ef, Ed.
    destruct d; [discriminate Ed|]. rewrite (get_mode_lists _ _ _ L Hm) in Em. split; [exact Et|]. split; [exact Em|]. exists m. split; [exact Hm|]. split; [exact Ef|].
    destruct ss as [|s [|]]; [discriminate Ei| |discriminate Ei]. unfold is_stdin in Ei. destruct (s_input s) eqn:Es; try discriminate Ei.
    unfold get_input_output_streams in Hs. cbv zeta in Hs. destruct (m_free m) as [|a [|b l]]; [auto| |].
    + right. destruct (text_eqb a dash) eqn:Ea; [apply text_eqb_eq in Ea as ->; reflexivity|]. exfalso.
      destruct (_ || _) in Hs; [injection Hs as <-; discriminate Es|]. destruct (ensure _ _) in Hs; [|discriminate Hs|discriminate Hs].
      injection Hs as <-. discriminate Es.
    + exfalso. destruct (_ || _) in Hs; [discriminate Hs|]. destruct (ensure _ _) in Hs; discriminate Hs.
  - destruct (refused _ _ _ _ _ _ _ _ _ H) as (m & d & ss & v & u1 & u2 & Hm & Em & Hs & Hc); [right; reflexivity|].
    unfold check_and_adjust_ui_verbosity in Hc. cbv zeta in Hc.
    destruct (tin && _ && _) in Hc; [discriminate Hc|destruct (tout && _ && _) eqn:E in Hc; [clear Hc|destruct (v =? 0)%Z in Hc; discriminate Hc]].
    apply andb_true_iff in E as [E Ef]. apply andb_true_iff in E as [Et E]. apply andb_true_iff in E as [Ei Ed]. apply negb_true_iff in Ef.
    destruct d; [|discriminate Ed]. rewrite (get_mode_lists _ _ _ L Hm) in Em. split; [exact Et|]. split; [exact Em|]. exists m. split; [exact Hm|]. split; [exact Ef|].
    destruct ss as [|s [|]]; [discriminate Ei| |discriminate Ei]. unfold is_stdout in Ei.
    unfold get_input_output_streams in Hs. cbv zeta in Hs. destruct (m_free m) as [|a [|b l]]; [auto| |].
    + right. destruct (text_eqb a dash) eqn:Ea; [apply text_eqb_eq in Ea as ->; left; reflexivity|].
      destruct (opt_present m OStream); [right; exists a; auto|]. exfalso. cbn [orb] in Hs. destruct (ensure _ _) in Hs; [|discriminate Hs|discriminate Hs].
      injection Hs as <-. cbn [s_output] in Ei. unfold bind in Ei. destruct (add_extension _ _ _) in Ei; discriminate Ei.
    + exfalso. destruct (_ || _) in Hs; [discriminate Hs|]. destruct (ensure _ _) in Hs; discriminate Hs.
Qed.
Print Assumptions C34_refused_only_for_terminals.

(** Decryption of standard input is refused on a terminal, and that of a file to standard output is not. *)
Example C34_refused_case : forall u, let file := [lit "-d"; lit "-s"; lit "a.rypt"; lit "--symmetric-key"; lit "k"] in
  lists [lit "-d"] [(ODecrypt, None)] /\ lists [lit "-s"; lit "a"] [(OStream, None)] /\
  fst (parse_command_line (fun _ => []) (fun _ => None) [lit "-d"] true true true u) = Err CReadFromTerminal /\
  fst (parse_command_line (fun _ => []) (fun _ => None) [lit "-s"; lit "a"] true true true u) = Err CWriteToTerminal /\
  fst (parse_command_line (fun _ => []) (fun _ => None) file true true true u) = Err CIo.
Proof.
  intros u file. split; [|split; [|split; [|split]]]; try reflexivity.
  - apply (li_opt ODecrypt None [lit "-d"] [] []); [apply (sl_short ODecrypt 100); reflexivity|constructor].
  - apply (li_opt OStream None [lit "-s"] [lit "a"] []); [apply (sl_short OStream 115); reflexivity|].
    apply li_free; [intros a' [=]|constructor].
Qed.

(** ** C35 *)

(** With each option in an argument of its own, the last mode option decides. *)
Theorem C35_last_mode_wins : forall sha512 files args os stdin_is_tty stdout_is_tty stderr_is_tty u c u',
  lists args os -> parse_command_line sha512 files args stdin_is_tty stdout_is_tty stderr_is_tty u = (Ok c, u') ->
  args <> [] \/ stdout_is_tty = false -> performs c (last_mode (map fst os)).
Proof.
  intros sha512 files args os tin tout terr u c u' L H Ha. destruct (command_line_inv _ _ _ _ _ _ _ _ _ H) as (m & Hm & P & _).
  rewrite (get_mode_lists _ _ _ L Hm) in P. destruct args as [|a args]; [|exact P]. destruct Ha as [Ha| ->]; [contradiction|exact P].
Qed.
Print Assumptions C35_last_mode_wins.

(** In general the mode option with the greatest position decides, and without one it is encryption. *)
Theorem C35_greatest_position_wins : forall sha512 files args m stdin_is_tty stdout_is_tty stderr_is_tty u c u',
  parse_options args = Ok m -> parse_command_line sha512 files args stdin_is_tty stdout_is_tty stderr_is_tty u = (Ok c, u') ->
  (forall x mode, In x (m_occs m) -> mode_of (o_opt x) = Some mode ->
    (forall y, In y (m_occs m) -> mode_of (o_opt y) <> None -> y = x \/ (o_pos y < o_pos x)%nat) -> performs c mode) /\
  (args <> [] \/ stdout_is_tty = false -> (forall x, In x (m_occs m) -> mode_of (o_opt x) = None) -> performs c (MCrypt Encrypt)).
Proof.
  intros sha512 files args m tin tout terr u c u' Hm H. destruct (command_line_inv _ _ _ _ _ _ _ _ _ H) as (m' & Hm' & P & _).
  assert (m' = m) by congruence. subst m'. split.
  - intros x mode Ix Em L. rewrite (get_mode_last _ _ _ Ix Em L) in P. destruct args as [|a args]; [|exact P].
    exfalso. cbv in Hm. injection Hm as <-. destruct Ix.
  - intros Ha N. rewrite (get_mode_none _ N) in P. destruct args as [|a args]; [|exact P]. destruct Ha as [Ha| ->]; [contradiction|exact P].
Qed.
Print Assumptions C35_greatest_position_wins.

(** Help is shown without being asked for only if there are no arguments and standard output is a terminal. *)
Theorem C35_help_without_arguments : forall sha512 files args m stdin_is_tty stdout_is_tty stderr_is_tty u u',
  parse_options args = Ok m -> parse_command_line sha512 files args stdin_is_tty stdout_is_tty stderr_is_tty u = (Ok Help, u') ->
  (args = [] /\ stdout_is_tty = true) \/ exists x, In x (m_occs m) /\ o_opt x = OHelp.
Proof.
  intros sha512 files args m tin tout terr u u' Hm H. destruct (command_line_inv _ _ _ _ _ _ _ _ _ H) as (m' & Hm' & P & _).
  assert (m' = m) by congruence. subst m'.
  assert (G : get_mode m = MHelp -> exists x, In x (m_occs m) /\ o_opt x = OHelp).
  { intros E. unfold get_mode in E. fold (mode_list m) in E. pose proof (max_by_pos_spec (mode_list m) None) as S.
    destruct (max_by_pos None (mode_list m)) as [[p md]|]; [|discriminate E]. subst md. destruct S as [[S|S] _]; [discriminate S|].
    apply mode_list_in in S as (x & Ix & _ & Em). exists x. split; [exact Ix|]. destruct (o_opt x); try discriminate Em; reflexivity. }
  destruct args as [|a args]; [destruct tout; [left; auto|]|]; right; apply G; cbn [andb] in P; destruct (get_mode m) as [[]| | |]; try contradiction P; reflexivity.
Qed.
Print Assumptions C35_help_without_arguments.

(** Options that share an argument: "-ed" and "-de" mean the same, so one of them is not decided by its last flag. *)
Theorem C35_order_within_an_argument_refuted : exists m1 m2,
  parse_options [lit "-ed"] = Ok m1 /\ parse_options [lit "-de"] = Ok m2 /\
  get_mode m1 = MCrypt Decrypt /\ get_mode m2 = MCrypt Decrypt.
Proof. do 2 eexists. split; [vm_compute; reflexivity|]. split; [vm_compute; reflexivity|]. split; vm_compute; reflexivity. Qed.
Print Assumptions C35_order_within_an_argument_refuted.

(** ** C53 *)

(** Unless the verbosity is set, progress is never shown while data is typed into or printed on a terminal. *)
Theorem C53_progress_does_not_mix_with_data : forall sha512 files args m stdin_is_tty stdout_is_tty stderr_is_tty u c u',
  parse_options args = Ok m -> opt_count m OVerbose = opt_count m OQuiet ->
  parse_command_line sha512 files args stdin_is_tty stdout_is_tty stderr_is_tty u = (Ok c, u') -> u_progress_enabled u' = true ->
  (data_on_stdin c -> stdin_is_tty = false) /\ (data_on_stdout c -> stdout_is_tty = false).
Proof.
  intros sha512 files args m tin tout terr u c u' Hm Hv H Hp. destruct (command_line_inv _ _ _ _ _ _ _ _ _ H) as (m' & Hm' & _ & C).
  assert (m' = m) by congruence. subst m'. rewrite Hv, Z.sub_diag in C.
  assert (K : forall ss po fo dir, c = CryptStreams ss po fo dir -> exists d fo' u1 u2, get_input_output_streams m d fo' = Ok ss /\
            check_and_adjust_ui_verbosity 0 ss d fo tin tout terr u1 = (Ok tt, u2) /\ u_progress_enabled u2 = true).
  { intros ss po fo dir E. destruct (C _ _ _ _ E) as (d & u1 & u2 & _ & _ & Hs & Hc & Hk & _). exists d, fo, u1, u2. split; [exact Hs|]. split; [exact Hc|].
    assert (settings u' = settings u2) as S.
    { destruct d; [destruct Hk as (cr & fa & _ & Hk); pose proof (keeps_get_encrypt sha512 files m fo u2) as X|destruct Hk as (cs & _ & Hk); pose proof (keeps_get_decrypt sha512 files m fo u2) as X];
        rewrite Hk in X; exact X. }
    unfold settings in S. congruence. }
  split.
  - intros (ss & po & fo & dir & s & E & Is & Ei). destruct (K _ _ _ _ E) as (d & fo' & u1 & u2 & Hs & Hc & P).
    exact (proj1 (proj1 (proj2 (proj2 (check_inv _ _ _ _ _ _ _ _ _ Hc))) eq_refl P) s (only_one _ _ _ _ _ Hs Is (or_introl Ei)) Ei).
  - intros (ss & po & fo & dir & s & E & Is & Ei). destruct (K _ _ _ _ E) as (d & fo' & u1 & u2 & Hs & Hc & P).
    exact (proj2 (proj1 (proj2 (proj2 (check_inv _ _ _ _ _ _ _ _ _ Hc))) eq_refl P) s (only_one _ _ _ _ _ Hs Is (or_intror Ei)) Ei).
Qed.
Print Assumptions C53_progress_does_not_mix_with_data.

(** ** Cases *)

(** rypt -v --password-file keys, with all streams on a terminal and -f: progress is shown although data is typed. *)
Definition case_tty : ui := mkUi (Some []) true true 0 true None [].
Theorem C53_with_verbosity_refuted : exists c u',
  parse_command_line case_sha case_files (map lit ["-v"; "-f"; "--password-file"; "keys"]%string) true true true case_tty = (Ok c, u') /\
  u_progress_enabled u' = true /\ data_on_stdin c.
Proof.
  do 2 eexists. split; [vm_compute; reflexivity|]. split; [vm_compute; reflexivity|]. do 5 eexists. split; [reflexivity|]. split; [left; reflexivity|]. reflexivity.
Qed.
Print Assumptions C53_with_verbosity_refuted.

(** rypt -d -e -S .x --password-file keys dir/a.b c *)
Definition case_names : list text := map lit ["-d"; "-e"; "-S"; ".x"; "--password-file"; "keys"; "dir/a.b"; "c"]%string.
Example case_names_accepted : exists m c u',
  parse_options case_names = Ok m /\ get_encrypted_file_extension m = lit "x" /\
  lists case_names [(ODecrypt, None); (OEncrypt, None); (OSuffix, Some (lit ".x")); (OPasswordFile, Some (lit "keys"))] /\
  parse_command_line case_sha case_files case_names false false false case_no_tty = (Ok c, u') /\ performs c (MCrypt Encrypt) /\
  get_input_output_streams m Encrypt false = Ok
    [mkStream (IFile [Normal (lit "dir"); Normal (lit "a.b")]) (Ok (OFile [Normal (lit "dir"); Normal (lit "a.b.x")]));
     mkStream (IFile [Normal (lit "c")]) (Ok (OFile [Normal (lit "c.x")]))] /\
  ~ ends_in_dot (lit "a.b") /\ ~ In 47 (lit "x") /\ ~ In 46 (lit "x").
Proof.
  do 3 eexists. split; [vm_compute; reflexivity|]. split; [vm_compute; reflexivity|]. split; [|split; [vm_compute; reflexivity|]].
  - change case_names with ([lit "-d"] ++ [lit "-e"] ++ [lit "-S"; lit ".x"] ++ [lit "--password-file"; lit "keys"] ++ [lit "dir/a.b"; lit "c"]).
    apply li_opt; [apply (sl_short ODecrypt 100); reflexivity|]. apply li_opt; [apply (sl_short OEncrypt 101); reflexivity|].
    apply li_opt; [apply (sl_short_value OSuffix 83); reflexivity|]. apply li_opt; [apply (sl_long_value OPasswordFile); reflexivity|].
    apply li_free; [discriminate|]. apply li_free; [discriminate|]. apply li_nil.
  - split; [exact I|]. split; [vm_compute; reflexivity|]. split; [|split; intros H; vm_compute in H; intuition discriminate].
    intros [a E]. destruct a as [|? [|? [|? [|? a]]]]; discriminate E.
Qed.

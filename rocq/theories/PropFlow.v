(** C74: what the manual describes works from end to end.  Files encrypted for a generated public key, or with a typed
    password, are restored by a later run of the program, perhaps on another machine, that is given the private key or
    the password. *)
From Coq.Strings Require Import Byte String.
From Coq Require Import List NArith ZArith Bool PeanoNat Lia.
From Verif Require Import Base BaseFacts Shamir Errors Io HeaderIo HeaderIoSpec StreamSpec Text Util CliErrors Getopts Crypto HeaderCrypto CredSpec FileCrypto KeyFiles Ui UiSpec Paths PathSpec PathProofs CliCreds Cli CliSpec OptSpec OptProofs CmdSpec CmdProofs Progress Fs Commands FsSpec
  HeaderCryptoProofs4 FsProofs12 ToyCrypto FsCases FsCases2 FlowSpec FlowProofs FlowProofs2 FlowProofs3 FlowProofs4 FlowCases PropFs2.
Import ListNotations.
Local Open Scope N_scope.

(** ** Key pairs *)

(** Three successful runs, on the machines [e0], [e1] and [e2]: a key pair [k] is generated; the file [f] is encrypted for
    the public key, a copy of which has the name [pub]; and a copy [g] of the encrypted file is decrypted with the private
    key, a copy of which has the name [priv].  Then the content is restored.  For [--fast] the two algorithms must have the
    same key pairs, as they have in libsodium. *)
Theorem C74_key_pairs : forall e0 e1 e2 lib sha512 args0 occs0 free0 w w' k d0 n0 n0'
    args1 occs1 free1 v v' pub f b d n args2 occs2 free2 x x' priv g encrypted,
  lib_ok lib -> (forall m, sha512 m <> []) ->
  (given OFast occs1 -> forall c c', lib ChaCha20Poly1305Ietf = Some c -> lib AES256GCM = Some c' -> forall seed, cs_keypair c seed = cs_keypair c' seed) ->
  succeeds e0 lib sha512 args0 occs0 free0 w w' -> asks_for_keys occs0 -> In k free0 -> k <> lit "-" -> is_file (components k) d0 n0 -> public_name n0 n0' ->
  succeeds e1 lib sha512 args1 occs1 free1 v v' -> asks_to_encrypt occs1 -> only_key OPublicKey pub occs1 ->
  files_in e1 (w_fs v) pub = content e0 (w_fs w') (d0 ++ [Normal n0']) ->
  all_there e1 (w_fs v) free1 -> In f free1 -> f <> lit "-" -> plain e1 (w_fs v) f b -> is_file (components f) d n -> ~ ends_in_dot n ->
  succeeds e2 lib sha512 args2 occs2 free2 x x' -> asks_to_decrypt occs2 -> only_key OPrivateKey priv occs2 ->
  files_in e2 (w_fs x) priv = content e0 (w_fs w') (components k) ->
  all_there e2 (w_fs x) free2 -> In g free2 -> g <> lit "-" -> plain e2 (w_fs x) g encrypted ->
  content e1 (w_fs v') (d ++ [Normal (n ++ lit ".rypt")]) = Some encrypted ->
  exists d' n', is_file (components g) d' (n' ++ lit ".rypt") /\
    (n' <> lit "." -> n' <> lit ".." -> content e2 (w_fs x') (d' ++ [Normal n']) = Some b).
Proof.
  intros e0 e1 e2 lib sha512 args0 occs0 free0 w w' k d0 n0 n0' args1 occs1 free1 v v' pub f b d n args2 occs2 free2 x x' priv g cf Hl Hs Sm
    S0 A0 Ik Nk Fk Pn S1 A1 K1 Q1 At1 If Nf Pf Ff Nd S2 A2 K2 Q2 At2 Ig Ng Pg Ec.
  destruct (succeeds_keys lib sha512 Hl e0 _ _ _ _ _ _ _ _ _ S0 A0 Ik Nk Fk Pn Hs) as (c0 & seed & public & private & E0 & Cp & Cs & Rd). rewrite Cp in Q1. rewrite Cs in Q2.
  destruct (Rd false) as [Rp Rs].
  destruct (encrypts_public lib sha512 e1 _ _ _ _ _ _ _ _ S1 A1 K1 (eq_trans (f_equal (fun z => read_file_lines z _) Q1) Rp) If) as (fast & En & Fa).
  pose proof (decrypts_private lib sha512 e2 _ _ _ _ _ _ _ _ S2 A2 K2 (eq_trans (f_equal (fun z => read_file_lines z _) Q2) Rs) Ig) as De.
  refine (there_and_back lib sha512 Hl e1 _ _ _ _ _ e2 _ _ _ _ _ _ _ fast f g b cf d n En De (wf_public _) eq_refl _ At1 If Nf Pf Ff Nd At2 Ig Ng Pg Ec).
  apply (pair_matches lib c0 seed fast E0). intros X. apply Sm, Fa, X.
Qed.

(** ** Typed passwords *)

(** Two successful runs without options about keys, where the same password is typed. *)
Theorem C74_passwords : forall e1 e2 lib sha512 args1 occs1 free1 v v' password f b d n args2 occs2 free2 x x' g encrypted,
  lib_ok lib ->
  succeeds e1 lib sha512 args1 occs1 free1 v v' -> asks_to_encrypt occs1 -> no_key occs1 -> types_password (w_ui v) true password ->
  all_there e1 (w_fs v) free1 -> In f free1 -> f <> lit "-" -> plain e1 (w_fs v) f b -> is_file (components f) d n -> ~ ends_in_dot n ->
  succeeds e2 lib sha512 args2 occs2 free2 x x' -> asks_to_decrypt occs2 -> no_key occs2 -> types_password (w_ui x) false password ->
  all_there e2 (w_fs x) free2 -> In g free2 -> g <> lit "-" -> plain e2 (w_fs x) g encrypted ->
  content e1 (w_fs v') (d ++ [Normal (n ++ lit ".rypt")]) = Some encrypted ->
  exists d' n', is_file (components g) d' (n' ++ lit ".rypt") /\
    (n' <> lit "." -> n' <> lit ".." -> content e2 (w_fs x') (d' ++ [Normal n']) = Some b).
Proof.
  intros e1 e2 lib sha512 args1 occs1 free1 v v' p f b d n args2 occs2 free2 x x' g cf Hl
    S1 A1 K1 T1 At1 If Nf Pf Ff Nd S2 A2 K2 T2 At2 Ig Ng Pg Ec.
  destruct (encrypts_typed lib sha512 e1 _ _ _ _ _ _ _ S1 A1 K1 T1 If) as (fast & En).
  pose proof (decrypts_typed lib sha512 e2 _ _ _ _ _ _ _ S2 A2 K2 T2 Ig) as De.
  refine (there_and_back lib sha512 Hl e1 _ _ _ _ _ e2 _ _ _ _ _ _ _ fast f g b cf d n En De (wf_password _) eq_refl _ At1 If Nf Pf Ff Nd At2 Ig Ng Pg Ec).
  intros cs _. split; [reflexivity|exact I].
Qed.

(** ** These runs succeed *)

(** Every run of [rypt -g KEY], [rypt -K --public-key KEY.pub FILE], [rypt -d -K --private-key KEY FILE.rypt],
    [rypt -K FILE] and [rypt -d -K FILE.rypt], where no operation of the operating system fails ([in_order]), the input
    is there and the output is not, exits with status 0. *)
Theorem C74_key_generation_succeeds : forall e w lib sha512 files k d n n' stdin_is_tty stdout_is_tty stderr_is_tty status w',
  lib_ok lib -> lib ChaCha20Poly1305Ietf <> None -> in_order e w ->
  is_word k -> k <> lit "-" -> is_file (components k) d n -> public_name n n' -> free_names e (w_fs w) [d ++ [Normal n']; components k] ->
  main e lib sha512 files [lit "-g"; k] stdin_is_tty stdout_is_tty stderr_is_tty w status w' -> status = 0.
Proof. intros e w lib sha512 files k d n n' ti to te status w' Hl Ln Io Wk Nk Fk Pn Fr H. exact (generate_succeeds lib sha512 Hl e w k d n n' ti to te files status w' Io Wk Nk Fk Pn Ln Fr H). Qed.

Theorem C74_encryption_succeeds : forall e0 lib sha512 args0 occs0 free0 w w' k d0 n0 n0' e v pub f b d n stdin_is_tty stdout_is_tty stderr_is_tty status v',
  lib_ok lib -> (forall m, sha512 m <> []) ->
  succeeds e0 lib sha512 args0 occs0 free0 w w' -> asks_for_keys occs0 -> In k free0 -> k <> lit "-" -> is_file (components k) d0 n0 -> public_name n0 n0' ->
  in_order e v -> files_in e (w_fs v) pub = content e0 (w_fs w') (d0 ++ [Normal n0']) ->
  file_argument f -> plain e (w_fs v) f b -> is_file (components f) d n -> ~ ends_in_dot n -> ~ (exists a, a <> [] /\ n = a ++ lit ".rypt") ->
  free_names e (w_fs v) [d ++ [Normal (n ++ lit ".rypt")]] ->
  main e lib sha512 (files_in e (w_fs v)) [lit "-K"; lit "--public-key"; pub; f] stdin_is_tty stdout_is_tty stderr_is_tty v status v' -> status = 0.
Proof.
  intros e0 lib sha512 args0 occs0 free0 w w' k d0 n0 n0' e v pub f b d n ti to te status v' Hl Hs S0 A0 Ik Nk Fk Pn Io Q (Wf & Tf & Nf) Pf Ff Nd Nr (ts & Et & _ & Fr) H.
  destruct (succeeds_keys lib sha512 Hl e0 _ _ _ _ _ _ _ _ _ S0 A0 Ik Nk Fk Pn Hs) as (c0 & seed & public & private & E0 & Cp & Cs & Rd). rewrite Cp in Q.
  pose proof (add_rypt _ d n Ff (path_ok_name _ _ _ (components_ok f) Ff) Nd Nr) as Eq.
  destruct (line_public sha512 (files_in e (w_fs v)) pub f _ (fst (cs_keypair c0 seed)) ti to te (w_ui v) Wf Nf Tf Eq) as (u & Ep & Ru).
  { rewrite Q. apply (Rd false). }
  destruct ts as [|t [|? ?]]; try discriminate Et. injection Et as Et.
  assert (Ro : u_room (w_ui v) = None) by apply Io.
  refine (encrypt_succeeds lib sha512 Hl e v f d n b _ _ t u _ ti to te _ status v' Io eq_refl Pf Et (Fr t (or_introl eq_refl)) (eq_trans Ru Ro) _ Ep H).
  apply (public_convertible lib Hl), E0.
Qed.

Theorem C74_decryption_succeeds : forall e0 lib sha512 args0 occs0 free0 w w' k d0 n0 n0' e1 args1 occs1 free1 v v' pub f b d n
    e x priv g encrypted d' n' stdin_is_tty stdout_is_tty stderr_is_tty status x',
  lib_ok lib -> (forall m, sha512 m <> []) ->
  (given OFast occs1 -> forall c c', lib ChaCha20Poly1305Ietf = Some c -> lib AES256GCM = Some c' -> forall seed, cs_keypair c seed = cs_keypair c' seed) ->
  succeeds e0 lib sha512 args0 occs0 free0 w w' -> asks_for_keys occs0 -> In k free0 -> k <> lit "-" -> is_file (components k) d0 n0 -> public_name n0 n0' ->
  succeeds e1 lib sha512 args1 occs1 free1 v v' -> asks_to_encrypt occs1 -> only_key OPublicKey pub occs1 ->
  files_in e1 (w_fs v) pub = content e0 (w_fs w') (d0 ++ [Normal n0']) ->
  all_there e1 (w_fs v) free1 -> In f free1 -> f <> lit "-" -> plain e1 (w_fs v) f b -> is_file (components f) d n -> ~ ends_in_dot n ->
  content e1 (w_fs v') (d ++ [Normal (n ++ lit ".rypt")]) = Some encrypted ->
  in_order e x -> files_in e (w_fs x) priv = content e0 (w_fs w') (components k) ->
  file_argument g -> plain e (w_fs x) g encrypted -> is_file (components g) d' (n' ++ lit ".rypt") -> name_ok n' ->
  free_names e (w_fs x) [d' ++ [Normal n']] ->
  main e lib sha512 (files_in e (w_fs x)) [lit "-d"; lit "-K"; lit "--private-key"; priv; g] stdin_is_tty stdout_is_tty stderr_is_tty x status x' -> status = 0.
Proof.
  intros e0 lib sha512 args0 occs0 free0 w w' k d0 n0 n0' e1 args1 occs1 free1 v v' pub f b d n e x priv g cf d' n' ti to te status x' Hl Hs Sm
    S0 A0 Ik Nk Fk Pn S1 A1 K1 Q1 At1 If Nf Pf Ff Nd Ec Io Q2 (Wg & Tg & Ng) Pg Fg On (ts & Et & _ & Fr) H.
  destruct (succeeds_keys lib sha512 Hl e0 _ _ _ _ _ _ _ _ _ S0 A0 Ik Nk Fk Pn Hs) as (c0 & seed & public & private & E0 & Cp & Cs & Rd). rewrite Cp in Q1. rewrite Cs in Q2.
  destruct (Rd false) as [Rp Rs].
  destruct (encrypts_public lib sha512 e1 _ _ _ _ _ _ _ _ S1 A1 K1 (eq_trans (f_equal (fun z => read_file_lines z _) Q1) Rp) If) as (fast & En & Fa).
  destruct On as (N0 & N1 & N2 & _). pose proof (remove_rypt _ d' n' Fg (components_ok g) N0 N1 N2) as Eq.
  destruct (line_private sha512 (files_in e (w_fs x)) priv g _ (snd (cs_keypair c0 seed)) ti to te (w_ui x) Wg Ng Tg Eq) as (u & Ep & Ru).
  { rewrite Q2. exact Rs. }
  destruct ts as [|t [|? ?]]; try discriminate Et. injection Et as Et.
  assert (Ro : u_room (w_ui x) = None) by apply Io.
  refine (decrypt_succeeds lib sha512 Hl e x g cf _ _ t u _ ti to te _ status x' Io Pg Et (Fr t (or_introl eq_refl)) (eq_trans Ru Ro) _ Ep H).
  refine (encrypted_convertible lib sha512 Hl e1 _ _ _ _ _ _ _ fast f b cf d n En (wf_public _) eq_refl _ At1 If Nf Pf Ff Nd Ec).
  apply (pair_matches lib c0 seed fast E0). intros X. apply Sm, Fa, X.
Qed.

Theorem C74_encryption_with_a_typed_password_succeeds : forall e lib sha512 v password f b d n stdin_is_tty stdout_is_tty stderr_is_tty status v',
  lib_ok lib -> lib ChaCha20Poly1305Ietf <> None -> in_order e v -> typist (w_ui v) -> types_password (w_ui v) true password ->
  file_argument f -> plain e (w_fs v) f b -> is_file (components f) d n -> ~ ends_in_dot n -> ~ (exists a, a <> [] /\ n = a ++ lit ".rypt") ->
  free_names e (w_fs v) [d ++ [Normal (n ++ lit ".rypt")]] ->
  main e lib sha512 (files_in e (w_fs v)) [lit "-K"; f] stdin_is_tty stdout_is_tty stderr_is_tty v status v' -> status = 0.
Proof.
  intros e lib sha512 v p f b d n ti to te status v' Hl Ln Io Ty (s & rs & s' & Iu & Rs & Ac) (Wf & Tf & Nf) Pf Ff Nd Nr (ts & Et & _ & Fr) H.
  pose proof (add_rypt _ d n Ff (path_ok_name _ _ _ (components_ok f) Ff) Nd Nr) as Eq.
  destruct (line_typed_encrypt sha512 (files_in e (w_fs v)) f _ p s rs s' ti to te (w_ui v) Wf Nf Tf Eq Ty Iu Rs Ac) as (u & Ep & Ru).
  destruct ts as [|t [|? ?]]; try discriminate Et. injection Et as Et.
  refine (encrypt_succeeds lib sha512 Hl e v f d n b _ _ t u _ ti to te _ status v' Io eq_refl Pf Et (Fr t (or_introl eq_refl)) Ru _ Ep H).
  destruct (lib ChaCha20Poly1305Ietf) as [c0|] eqn:E0; [|contradiction]. exact (password_convertible lib Hl c0 _ _ E0).
Qed.

Theorem C74_decryption_with_a_typed_password_succeeds : forall e1 lib sha512 args1 occs1 free1 v v' password f b d n
    e x g encrypted d' n' stdin_is_tty stdout_is_tty stderr_is_tty status x',
  lib_ok lib ->
  succeeds e1 lib sha512 args1 occs1 free1 v v' -> asks_to_encrypt occs1 -> no_key occs1 -> types_password (w_ui v) true password ->
  all_there e1 (w_fs v) free1 -> In f free1 -> f <> lit "-" -> plain e1 (w_fs v) f b -> is_file (components f) d n -> ~ ends_in_dot n ->
  content e1 (w_fs v') (d ++ [Normal (n ++ lit ".rypt")]) = Some encrypted ->
  in_order e x -> typist (w_ui x) -> types_password (w_ui x) false password ->
  file_argument g -> plain e (w_fs x) g encrypted -> is_file (components g) d' (n' ++ lit ".rypt") -> name_ok n' ->
  free_names e (w_fs x) [d' ++ [Normal n']] ->
  main e lib sha512 (files_in e (w_fs x)) [lit "-d"; lit "-K"; g] stdin_is_tty stdout_is_tty stderr_is_tty x status x' -> status = 0.
Proof.
  intros e1 lib sha512 args1 occs1 free1 v v' p f b d n e x g cf d' n' ti to te status x' Hl
    S1 A1 K1 T1 At1 If Nf Pf Ff Nd Ec Io Ty (s & rs & s' & Iu & Rs & Ac) (Wg & Tg & Ng) Pg Fg On (ts & Et & _ & Fr) H.
  destruct (encrypts_typed lib sha512 e1 _ _ _ _ _ _ _ S1 A1 K1 T1 If) as (fast & En).
  destruct On as (N0 & N1 & N2 & _). pose proof (remove_rypt _ d' n' Fg (components_ok g) N0 N1 N2) as Eq.
  destruct (line_typed_decrypt sha512 (files_in e (w_fs x)) g _ p s rs s' ti to te (w_ui x) Wg Ng Tg Eq Ty Iu Rs Ac) as (u & Ep & Ru).
  destruct ts as [|t [|? ?]]; try discriminate Et. injection Et as Et.
  refine (decrypt_succeeds lib sha512 Hl e x g cf _ _ t u _ ti to te _ status x' Io Pg Et (Fr t (or_introl eq_refl)) Ru _ Ep H).
  refine (encrypted_convertible lib sha512 Hl e1 _ _ _ _ _ _ _ fast f b cf d n En (wf_password _) eq_refl _ At1 If Nf Pf Ff Nd Ec).
  intros cs _. split; [reflexivity|exact I].
Qed.

Print Assumptions C74_key_pairs.
Print Assumptions C74_passwords.
Print Assumptions C74_key_generation_succeeds.
Print Assumptions C74_encryption_succeeds.
Print Assumptions C74_decryption_succeeds.
Print Assumptions C74_encryption_with_a_typed_password_succeeds.
Print Assumptions C74_decryption_with_a_typed_password_succeeds.

(** ** Runs of these commands *)

(** On three machines, each with two files: rypt -g me; rypt -K --public-key me.pub notes; and
    rypt -d -K --private-key me notes.rypt. *)
Example C74_key_pairs_case : exists w' public private v' encrypted x',
  let v := flow_world "me.pub" public "notes" case_data flow_quiet in
  let x := flow_world "me" private "notes.rypt" encrypted flow_quiet in
  succeeds flow_names toy_lib case_digest flow_generate flow_generate_occs [lit "me"] case_start w' /\ asks_for_keys flow_generate_occs /\
  is_file (components (lit "me")) [] (lit "me") /\ public_name (lit "me") (lit "me.pub") /\
  content flow_names (w_fs w') [Normal (lit "me.pub")] = Some public /\ content flow_names (w_fs w') (components (lit "me")) = Some private /\
  succeeds flow_names toy_lib case_digest flow_encrypt flow_encrypt_occs [lit "notes"] v v' /\ asks_to_encrypt flow_encrypt_occs /\
  only_key OPublicKey (lit "me.pub") flow_encrypt_occs /\ files_in flow_names (w_fs v) (lit "me.pub") = Some public /\
  all_there flow_names (w_fs v) [lit "notes"] /\ plain flow_names (w_fs v) (lit "notes") case_data /\ ~ ends_in_dot (lit "notes") /\
  content flow_names (w_fs v') [Normal (lit "notes.rypt")] = Some encrypted /\
  succeeds flow_names toy_lib case_digest flow_decrypt flow_decrypt_occs [lit "notes.rypt"] x x' /\ asks_to_decrypt flow_decrypt_occs /\
  only_key OPrivateKey (lit "me") flow_decrypt_occs /\ files_in flow_names (w_fs x) (lit "me") = Some private /\
  all_there flow_names (w_fs x) [lit "notes.rypt"] /\ plain flow_names (w_fs x) (lit "notes.rypt") encrypted /\
  content flow_names (w_fs x') [Normal (lit "notes")] = Some case_data.
Proof.
  assert (Ch : toy_lib ChaCha20Poly1305Ietf <> None) by discriminate.
  assert (Sm : given OFast flow_encrypt_occs -> forall c c', toy_lib ChaCha20Poly1305Ietf = Some c -> toy_lib AES256GCM = Some c' -> forall seed, cs_keypair c seed = cs_keypair c' seed) by (intros X; exfalso; revert X; no_option).
  (* generation *)
  destruct (C56_every_run_ends flow_names toy_lib case_digest (files_in flow_names (w_fs case_start)) flow_generate false false false case_start toy_lib_ok case_spacious) as (s0 & w' & H0).
  assert (s0 = 0) as ->.
  { refine (C74_key_generation_succeeds flow_names case_start toy_lib case_digest _ (lit "me") [] (lit "me") (lit "me.pub") false false false s0 w' toy_lib_ok Ch _ _ _ eq_refl flow_me (case_free false false) H0).
    - exact (conj case_wf_fs (conj case_spacious (conj eq_refl (conj eq_refl eq_refl)))).
    - apply flow_word. discriminate.
    - discriminate. }
  assert (S0 : succeeds flow_names toy_lib case_digest flow_generate flow_generate_occs [lit "me"] case_start w').
  { apply flow_succeeds; [exact case_wf_fs|apply parse_g, flow_word; discriminate|no_option|no_option|no_option|exact H0]. }
  clear H0. assert (Nk : lit "me" <> lit "-") by discriminate. assert (Fk : is_file (components (lit "me")) [] (lit "me")) by reflexivity.
  destruct (succeeds_keys toy_lib case_digest toy_lib_ok flow_names _ _ _ _ _ _ _ _ _ S0 flow_asks_keys (or_introl eq_refl) Nk Fk flow_me flow_digest) as (c0 & seed & public & private & E0 & Cp & Cs & Rd).
  (* encryption *)
  set (v := flow_world "me.pub" public "notes" case_data flow_quiet).
  assert (Ov : in_order flow_names v) by (apply flow_in_order; reflexivity).
  assert (Pp : plain flow_names (w_fs v) (lit "me.pub") public) by (apply flow_at; [reflexivity|apply flow_first]).
  assert (Pn : plain flow_names (w_fs v) (lit "notes") case_data) by (apply flow_at; [reflexivity|apply flow_second; reflexivity]).
  pose proof (plain_files_in _ _ _ _ Pp) as Fp.
  destruct (C56_every_run_ends flow_names toy_lib case_digest (files_in flow_names (w_fs v)) flow_encrypt false false false v toy_lib_ok (flow_spacious _ _ _ _)) as (s1 & v' & H1).
  assert (s1 = 0) as ->.
  { refine (C74_encryption_succeeds flow_names toy_lib case_digest _ _ _ case_start w' (lit "me") [] (lit "me") (lit "me.pub") flow_names v (lit "me.pub") (lit "notes") case_data [] (lit "notes") false false false s1 v'
      toy_lib_ok flow_digest S0 flow_asks_keys (or_introl eq_refl) Nk Fk flow_me Ov (eq_trans Fp (eq_sym Cp)) flow_notes Pn eq_refl flow_no_dot flow_no_rypt _ H1).
    apply (flow_free "me.pub" "notes" public case_data "notes.rypt"); reflexivity. }
  assert (S1 : succeeds flow_names toy_lib case_digest flow_encrypt flow_encrypt_occs [lit "notes"] v v').
  { apply flow_succeeds; [apply flow_wf|apply parse_encrypt_line, flow_notes|no_option|no_option|no_option|exact H1]. }
  clear H1. pose proof (flow_there "notes" _ _ Pn) as At1. assert (Nf : lit "notes" <> lit "-") by discriminate.
  destruct (encrypts_public toy_lib case_digest flow_names _ _ _ _ _ _ (fst (cs_keypair c0 seed)) _ S1 flow_asks_encrypt flow_public (eq_trans (f_equal (fun z => read_file_lines z _) Fp) (proj1 (Rd false))) (or_introl eq_refl)) as (fast & En & _).
  destruct (encrypted_there toy_lib case_digest toy_lib_ok flow_names _ _ _ _ _ _ fast (lit "notes") case_data [] (lit "notes") En (wf_public _) At1 (or_introl eq_refl) Nf Pn eq_refl flow_no_dot) as (cf & Ec). clear En fast.
  (* decryption *)
  set (x := flow_world "me" private "notes.rypt" cf flow_quiet).
  assert (Ox : in_order flow_names x) by (apply flow_in_order; reflexivity).
  assert (Ps : plain flow_names (w_fs x) (lit "me") private) by (apply flow_at; [reflexivity|apply flow_first]).
  assert (Pc : plain flow_names (w_fs x) (lit "notes.rypt") cf) by (apply flow_at; [reflexivity|apply flow_second; reflexivity]).
  pose proof (plain_files_in _ _ _ _ Ps) as Fs. pose proof (flow_there "notes.rypt" _ _ Pc) as At2. assert (Ng : lit "notes.rypt" <> lit "-") by discriminate.
  destruct (C56_every_run_ends flow_names toy_lib case_digest (files_in flow_names (w_fs x)) flow_decrypt false false false x toy_lib_ok (flow_spacious _ _ _ _)) as (s2 & x' & H2).
  assert (s2 = 0) as ->.
  { refine (C74_decryption_succeeds flow_names toy_lib case_digest _ _ _ case_start w' (lit "me") [] (lit "me") (lit "me.pub") flow_names _ _ _ v v' (lit "me.pub") (lit "notes") case_data [] (lit "notes")
      flow_names x (lit "me") (lit "notes.rypt") cf [] (lit "notes") false false false s2 x'
      toy_lib_ok flow_digest Sm S0 flow_asks_keys (or_introl eq_refl) Nk Fk flow_me S1 flow_asks_encrypt flow_public (eq_trans Fp (eq_sym Cp)) At1 (or_introl eq_refl) Nf Pn eq_refl flow_no_dot Ec
      Ox (eq_trans Fs (eq_sym Cs)) flow_notes_rypt Pc eq_refl _ _ H2).
    - repeat split; try discriminate. intros X. cbn in X. repeat (destruct X as [X|X]; [discriminate X|]). exact X.
    - apply (flow_free "me" "notes.rypt" private cf "notes"); reflexivity. }
  assert (S2 : succeeds flow_names toy_lib case_digest flow_decrypt flow_decrypt_occs [lit "notes.rypt"] x x').
  { apply flow_succeeds; [apply flow_wf|apply parse_decrypt_line, flow_notes_rypt|no_option|no_option|no_option|exact H2]. }
  clear H2.
  destruct (C74_key_pairs flow_names flow_names flow_names toy_lib case_digest _ _ _ case_start w' (lit "me") [] (lit "me") (lit "me.pub") _ _ _ v v' (lit "me.pub") (lit "notes") case_data [] (lit "notes") _ _ _ x x' (lit "me") (lit "notes.rypt") cf
    toy_lib_ok flow_digest Sm S0 flow_asks_keys (or_introl eq_refl) Nk Fk flow_me S1 flow_asks_encrypt flow_public (eq_trans Fp (eq_sym Cp)) At1 (or_introl eq_refl) Nf Pn eq_refl flow_no_dot
    S2 flow_asks_decrypt flow_private (eq_trans Fs (eq_sym Cs)) At2 (or_introl eq_refl) Ng Pc Ec) as (d' & n' & Fg & Z).
  assert (Eg : d' = [] /\ n' = lit "notes").
  { change (components (lit "notes.rypt")) with ([] ++ [Normal (lit "notes" ++ lit ".rypt")]) in Fg. unfold is_file in Fg. apply app_inj_tail in Fg as [<- Fg]. injection Fg as Fg.
    change (lit "notes" ++ lit ".rypt" = n' ++ lit ".rypt") in Fg. apply app_inv_tail in Fg. auto. }
  destruct Eg as [-> ->]. assert (Z' : content flow_names (w_fs x') [Normal (lit "notes")] = Some case_data) by (apply Z; discriminate). clear Z Fg.
  exists w', public, private, v', cf, x'. cbv zeta. fold v x.
  exact (conj S0 (conj flow_asks_keys (conj Fk (conj flow_me (conj Cp (conj Cs (conj S1 (conj flow_asks_encrypt (conj flow_public (conj Fp (conj At1 (conj Pn (conj flow_no_dot (conj Ec
    (conj S2 (conj flow_asks_decrypt (conj flow_private (conj Fs (conj At2 (conj Pc Z')))))))))))))))))))).
Qed.

(** On two machines: rypt -K notes; and rypt -d -K notes.rypt.  The password "a" is typed. *)
Example C74_passwords_case : exists v' encrypted x',
  let v := flow_world "me.pub" [] "notes" case_data (flow_typing flow_typed) in
  let x := flow_world "me" [] "notes.rypt" encrypted (flow_typing flow_typed) in
  in_order flow_names v /\ typist (w_ui v) /\
  succeeds flow_names toy_lib case_digest flow_encrypt_typed flow_encrypt_typed_occs [lit "notes"] v v' /\ asks_to_encrypt flow_encrypt_typed_occs /\
  no_key flow_encrypt_typed_occs /\ types_password (w_ui v) true [97] /\
  all_there flow_names (w_fs v) [lit "notes"] /\ plain flow_names (w_fs v) (lit "notes") case_data /\ ~ ends_in_dot (lit "notes") /\
  content flow_names (w_fs v') [Normal (lit "notes.rypt")] = Some encrypted /\
  in_order flow_names x /\ typist (w_ui x) /\
  succeeds flow_names toy_lib case_digest flow_decrypt_typed flow_decrypt_typed_occs [lit "notes.rypt"] x x' /\ asks_to_decrypt flow_decrypt_typed_occs /\
  no_key flow_decrypt_typed_occs /\ types_password (w_ui x) false [97] /\
  all_there flow_names (w_fs x) [lit "notes.rypt"] /\ plain flow_names (w_fs x) (lit "notes.rypt") encrypted /\
  content flow_names (w_fs x') [Normal (lit "notes")] = Some case_data.
Proof.
  assert (Ch : toy_lib ChaCha20Poly1305Ietf <> None) by discriminate.
  set (v := flow_world "me.pub" [] "notes" case_data (flow_typing flow_typed)).
  assert (Ov : in_order flow_names v) by (apply flow_in_order; reflexivity).
  assert (Pn : plain flow_names (w_fs v) (lit "notes") case_data) by (apply flow_at; [reflexivity|apply flow_second; reflexivity]).
  destruct (C56_every_run_ends flow_names toy_lib case_digest (files_in flow_names (w_fs v)) flow_encrypt_typed false false false v toy_lib_ok (flow_spacious _ _ _ _)) as (s1 & v' & H1).
  assert (s1 = 0) as ->.
  { refine (C74_encryption_with_a_typed_password_succeeds flow_names toy_lib case_digest v [97] (lit "notes") case_data [] (lit "notes") false false false s1 v'
      toy_lib_ok Ch Ov (flow_typist _) flow_types_twice flow_notes Pn eq_refl flow_no_dot flow_no_rypt _ H1).
    apply (flow_free "me.pub" "notes" [] case_data "notes.rypt"); reflexivity. }
  assert (S1 : succeeds flow_names toy_lib case_digest flow_encrypt_typed flow_encrypt_typed_occs [lit "notes"] v v').
  { apply flow_succeeds; [apply flow_wf|apply parse_encrypt_typed, flow_notes|no_option|no_option|no_option|exact H1]. }
  clear H1. pose proof (flow_there "notes" _ _ Pn) as At1. assert (Nf : lit "notes" <> lit "-") by discriminate. destruct flow_asks_encrypt_typed as [A1 K1].
  destruct (encrypts_typed toy_lib case_digest flow_names _ _ _ _ _ [97] _ S1 A1 K1 flow_types_twice (or_introl eq_refl)) as (fast & En).
  destruct (encrypted_there toy_lib case_digest toy_lib_ok flow_names _ _ _ _ _ _ fast (lit "notes") case_data [] (lit "notes") En (wf_password _) At1 (or_introl eq_refl) Nf Pn eq_refl flow_no_dot) as (cf & Ec). clear En fast.
  set (x := flow_world "me" [] "notes.rypt" cf (flow_typing flow_typed)).
  assert (Ox : in_order flow_names x) by (apply flow_in_order; reflexivity).
  assert (Pc : plain flow_names (w_fs x) (lit "notes.rypt") cf) by (apply flow_at; [reflexivity|apply flow_second; reflexivity]).
  pose proof (flow_there "notes.rypt" _ _ Pc) as At2. assert (Ng : lit "notes.rypt" <> lit "-") by discriminate. destruct flow_asks_decrypt_typed as [A2 K2].
  destruct (C56_every_run_ends flow_names toy_lib case_digest (files_in flow_names (w_fs x)) flow_decrypt_typed false false false x toy_lib_ok (flow_spacious _ _ _ _)) as (s2 & x' & H2).
  assert (s2 = 0) as ->.
  { refine (C74_decryption_with_a_typed_password_succeeds flow_names toy_lib case_digest _ _ _ v v' [97] (lit "notes") case_data [] (lit "notes")
      flow_names x (lit "notes.rypt") cf [] (lit "notes") false false false s2 x'
      toy_lib_ok S1 A1 K1 flow_types_twice At1 (or_introl eq_refl) Nf Pn eq_refl flow_no_dot Ec Ox (flow_typist _) flow_types_once flow_notes_rypt Pc eq_refl _ _ H2).
    - repeat split; try discriminate. intros X. cbn in X. repeat (destruct X as [X|X]; [discriminate X|]). exact X.
    - apply (flow_free "me" "notes.rypt" [] cf "notes"); reflexivity. }
  assert (S2 : succeeds flow_names toy_lib case_digest flow_decrypt_typed flow_decrypt_typed_occs [lit "notes.rypt"] x x').
  { apply flow_succeeds; [apply flow_wf|apply parse_decrypt_typed, flow_notes_rypt|no_option|no_option|no_option|exact H2]. }
  clear H2.
  destruct (C74_passwords flow_names flow_names toy_lib case_digest _ _ _ v v' [97] (lit "notes") case_data [] (lit "notes") _ _ _ x x' (lit "notes.rypt") cf
    toy_lib_ok S1 A1 K1 flow_types_twice At1 (or_introl eq_refl) Nf Pn eq_refl flow_no_dot S2 A2 K2 flow_types_once At2 (or_introl eq_refl) Ng Pc Ec) as (d' & n' & Fg & Z).
  assert (Eg : d' = [] /\ n' = lit "notes").
  { change (components (lit "notes.rypt")) with ([] ++ [Normal (lit "notes" ++ lit ".rypt")]) in Fg. unfold is_file in Fg. apply app_inj_tail in Fg as [<- Fg]. injection Fg as Fg.
    change (lit "notes" ++ lit ".rypt" = n' ++ lit ".rypt") in Fg. apply app_inv_tail in Fg. auto. }
  destruct Eg as [-> ->]. assert (Z' : content flow_names (w_fs x') [Normal (lit "notes")] = Some case_data) by (apply Z; discriminate). clear Z Fg.
  exists v', cf, x'. cbv zeta. fold v x.
  exact (conj Ov (conj (flow_typist _) (conj S1 (conj A1 (conj K1 (conj flow_types_twice (conj At1 (conj Pn (conj flow_no_dot (conj Ec
    (conj Ox (conj (flow_typist _) (conj S2 (conj A2 (conj K2 (conj flow_types_once (conj At2 (conj Pc Z')))))))))))))))))).
Qed.

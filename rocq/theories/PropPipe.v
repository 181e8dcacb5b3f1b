(** C80: the program as a filter; several passwords with a threshold.

    Vocabulary (PipeSpec): [filters] a successful run that writes to the standard output, [supplied] what there is to
    convert, [given_passwords] the passwords that options, files and typing provide, [how_many] of them are needed,
    [enough].  See also FlowSpec ([succeeds], [only_key], [content], [files_in]) and CredSpec ([no_accident]). *)
From Coq.Strings Require Import Byte String.
From Coq Require Import List NArith ZArith Bool PeanoNat Lia.
From Verif Require Import Base BaseFacts Shamir Errors Io HeaderIo HeaderIoSpec StreamSpec Text Util CliErrors Getopts Crypto HeaderCrypto CredSpec FileCrypto KeyFiles Ui UiSpec Paths PathSpec CliCreds Cli CliSpec OptSpec OptProofs CmdSpec Fs Commands FsSpec
  HeaderCryptoProofs4 FsProofs12 ToyCrypto FsCases FsCases2 FlowSpec FlowProofs FlowProofs2 FlowProofs3 FlowProofs4 FlowCases PipeSpec PipeProofs PipeProofs2 PipeProofs3 SizeSpec SizeProofs PropSize PropFs2 PropFlow.
Import ListNotations.
Local Open Scope N_scope.

(** ** Key pairs *)

(** A key pair [k] is generated; a run encrypts what it is supplied with for a copy of the public key and writes it to the
    standard output; any run that decrypts this with a copy of the private key writes the original data. *)
Theorem C80_key_pairs_through_pipes : forall e0 e1 e2 lib sha512 args0 occs0 free0 w w' k d0 n0 n0' args1 occs1 free1 v v' pub s1 b,
  lib_ok lib -> (forall m, sha512 m <> []) ->
  (given OFast occs1 -> forall c c', lib ChaCha20Poly1305Ietf = Some c -> lib AES256GCM = Some c' -> forall seed, cs_keypair c seed = cs_keypair c' seed) ->
  succeeds e0 lib sha512 args0 occs0 free0 w w' -> asks_for_keys occs0 -> In k free0 -> k <> lit "-" -> is_file (components k) d0 n0 -> public_name n0 n0' ->
  filters e1 lib sha512 args1 occs1 free1 v v' -> asks_to_encrypt occs1 -> only_key OPublicKey pub occs1 ->
  files_in e1 (w_fs v) pub = content e0 (w_fs w') (d0 ++ [Normal n0']) ->
  u_input (w_ui v) = Some s1 -> supplied e1 (w_fs v) s1 free1 b ->
  exists encrypted, w_stdout v' = w_stdout v ++ encrypted /\ (lenN b <= 1044480 -> lenN encrypted = lenN b + 184) /\
    forall args2 occs2 free2 x x' priv s2,
      filters e2 lib sha512 args2 occs2 free2 x x' -> asks_to_decrypt occs2 -> only_key OPrivateKey priv occs2 ->
      files_in e2 (w_fs x) priv = content e0 (w_fs w') (components k) ->
      u_input (w_ui x) = Some s2 -> supplied e2 (w_fs x) s2 free2 encrypted ->
      w_stdout x' = w_stdout x ++ b.
Proof.
  intros e0 e1 e2 lib sha512 args0 occs0 free0 w w' k d0 n0 n0' args1 occs1 free1 v v' pub s1 b Hl Hs Sm S0 A0 Ik Nk Fk Pn F1 A1 K1 Q1 I1 Su1.
  destruct (succeeds_keys lib sha512 Hl e0 _ _ _ _ _ _ _ _ _ S0 A0 Ik Nk Fk Pn Hs) as (c0 & seed & public & private & E0 & Cp & Cs & Rd). rewrite Cp in Q1. rewrite Cs.
  destruct (filters_encrypt lib sha512 e1 _ _ _ _ _ F1 A1) as (i & policy & force & c & fast & u & u2 & H1 & Fr & P1 & G1 & Iu & Fa).
  destruct (Rd force) as [Rp _].
  destruct (public_untouched sha512 _ _ _ _ _ _ _ _ _ _ P1 K1 (eq_trans (f_equal (fun z => read_file_lines z _) Q1) Rp) G1) as [-> ->].
  destruct (streamed lib Hl e1 _ _ _ _ _ _ _ _ _ _ H1 Fr (eq_trans Iu I1) Su1) as (cf & Eo & C1).
  exists cf. split; [exact Eo|]. split.
  { intros Lb. exact (C81_one_recipient_costs_184_bytes lib _ fast b cf Hl (wf_public _) ltac:(discriminate) C1 Lb). }
  intros args2 occs2 free2 x x' priv s2 F2 A2 K2 Q2 I2 Su2.
  destruct (filters_decrypt lib sha512 e2 _ _ _ _ _ F2 A2) as (i' & policy' & force' & cs & u' & u2' & H2 & Fr' & P2 & G2 & Iu').
  destruct (Rd force') as [_ Rs].
  destruct (private_untouched sha512 _ _ _ _ _ _ _ _ _ _ P2 K2 (eq_trans (f_equal (fun z => read_file_lines z _) Q2) Rs) G2) as [-> ->].
  destruct (streamed lib Hl e2 _ _ _ _ _ _ _ _ _ _ H2 Fr' (eq_trans Iu' I2) Su2) as (b' & Eo' & C2).
  rewrite Eo'. f_equal. refine (one_restored lib Hl _ _ fast b cf b' (wf_public _) eq_refl _ C1 C2).
  apply (pair_matches lib c0 seed fast E0). intros X. apply Sm, Fa, X.
Qed.
Print Assumptions C80_key_pairs_through_pipes.

(** ** Passwords *)

(** A run encrypts what it is supplied with for some passwords, [k] of which are needed.  Any run that decrypts the output
    with passwords writes the original data, and has been given [k] of the passwords. *)
Theorem C80_passwords_through_pipes : forall e1 e2 lib sha512 args1 occs1 free1 v v' s1 rest1 ps b,
  lib_ok lib ->
  filters e1 lib sha512 args1 occs1 free1 v v' -> asks_to_encrypt occs1 -> only_passwords occs1 ->
  u_input (w_ui v) = Some s1 -> given_passwords (files_in e1 (w_fs v)) true s1 occs1 rest1 ps -> lenN ps < 2 ^ 64 ->
  supplied e1 (w_fs v) rest1 free1 b ->
  exists k fast encrypted er ser cod chunk,
    how_many occs1 (lenN ps) k /\ 1 <= k <= lenN ps /\ (fast = true <-> given OFast occs1) /\
    w_stdout v' = w_stdout v ++ encrypted /\
    random_ok er /\ encrypt_header lib (mkEncryptOptions (map (fun p => (1, Password p)) ps) (lenN ps) k fast) er = Ok (ser, cod, chunk) /\ begins_with_header ser encrypted /\
    forall args2 occs2 free2 x x' s2 rest2 qs,
      filters e2 lib sha512 args2 occs2 free2 x x' -> asks_to_decrypt occs2 -> only_passwords occs2 ->
      u_input (w_ui x) = Some s2 -> given_passwords (files_in e2 (w_fs x)) false s2 occs2 rest2 qs ->
      supplied e2 (w_fs x) rest2 free2 encrypted ->
      no_accident (co_cs cod) (fst (cs_keypair (co_cs cod) (er_seed er))) (map Password qs) (map Password ps) (header_keys ser) ->
      enough k ps qs /\ w_stdout x' = w_stdout x ++ b.
Proof.
  intros e1 e2 lib sha512 args1 occs1 free1 v v' s1 rest1 ps b Hl F1 A1 O1 I1 G1 Ln Su1.
  destruct (filters_encrypt lib sha512 e1 _ _ _ _ _ F1 A1) as (i & policy & force & c & fast & u & u2 & H1 & Fr & P1 & C1 & Iu & Fa).
  destruct (encrypt_passwords sha512 _ _ _ _ _ _ _ _ _ _ _ P1 O1 (eq_trans Iu I1) G1 Ln C1) as (Iu1 & k & Hk & Lk & ->).
  destruct (streamed lib Hl e1 _ _ _ _ _ _ _ _ _ _ H1 Fr Iu1 Su1) as (cf & Eo & Cv).
  destruct (conversion_restored lib Hl _ _ _ _ _ _ (wf_passwords ps k Ln) Cv) as (er & ser & cod & chunk & Hr & He & Hh & Z).
  exists k, fast, cf, er, ser, cod, chunk. split; [exact Hk|]. split; [exact Lk|]. split; [exact Fa|]. split; [exact Eo|]. split; [exact Hr|]. split; [exact He|]. split; [exact Hh|].
  intros args2 occs2 free2 x x' s2 rest2 qs F2 A2 O2 I2 G2 Su2 Na.
  destruct (filters_decrypt lib sha512 e2 _ _ _ _ _ F2 A2) as (i' & policy' & force' & cs & u' & u2' & H2 & Fr' & P2 & C2 & Iu').
  destruct (decrypt_passwords sha512 _ _ _ _ _ _ _ _ _ _ _ P2 O2 (eq_trans Iu' I2) G2 C2) as (Iu2 & ->).
  destruct (streamed lib Hl e2 _ _ _ _ _ _ _ _ _ _ H2 Fr' Iu2 Su2) as (b' & Eo' & Cv').
  destruct (Z (map Password qs) (decryption_passwords _ qs)) as [_ Z2].
  { cbn [expression eo_sub_creds eo_num_shares eo_threshold]. unfold expression. cbn [eo_sub_creds eo_num_shares eo_threshold]. rewrite leaves_passwords. exact Na. }
  destruct (Z2 b' Cv') as [Sa ->]. split; [|exact Eo']. apply sat_enough in Sa. exact Sa.
Qed.
Print Assumptions C80_passwords_through_pipes.

(** ** These runs succeed *)

(** Every run of [rypt --public-key F] and [rypt -d --private-key F] on a machine where no operation fails; the data come
    from the standard input, and the standard output (for encryption) or input (for decryption) is not a terminal. *)
Theorem C80_encryption_for_a_key_succeeds : forall e0 lib sha512 args0 occs0 free0 w w' k d0 n0 n0' e v pub s stdin_is_tty stderr_is_tty status v',
  lib_ok lib -> (forall m, sha512 m <> []) ->
  succeeds e0 lib sha512 args0 occs0 free0 w w' -> asks_for_keys occs0 -> In k free0 -> k <> lit "-" -> is_file (components k) d0 n0 -> public_name n0 n0' ->
  in_order e v -> files_in e (w_fs v) pub = content e0 (w_fs w') (d0 ++ [Normal n0']) ->
  u_input (w_ui v) = Some s -> ends_in_error s = false ->
  main e lib sha512 (files_in e (w_fs v)) [lit "--public-key"; pub] stdin_is_tty false stderr_is_tty v status v' -> status = 0.
Proof.
  intros e0 lib sha512 args0 occs0 free0 w w' k d0 n0 n0' e v pub s ti te status v' Hl Hs S0 A0 Ik Nk Fk Pn (_ & _ & Nfa & Nst & Ro) Q Iu Ne H.
  destruct (succeeds_keys lib sha512 Hl e0 _ _ _ _ _ _ _ _ _ S0 A0 Ik Nk Fk Pn Hs) as (c0 & seed & public & private & E0 & Cp & Cs & Rd). rewrite Cp in Q.
  destruct (pipe_public sha512 (files_in e (w_fs v)) pub (fst (cs_keypair c0 seed)) ti te (w_ui v)) as (u1 & E1 & E2 & Ep).
  { rewrite Q. apply (Rd false). }
  refine (filter_succeeds lib sha512 e _ _ _ _ _ v status v' s _ u1 Nfa Nst Ro Iu Ne _ E1 E2 Ep H).
  apply (public_convertible lib Hl), E0.
Qed.
Print Assumptions C80_encryption_for_a_key_succeeds.

Theorem C80_decryption_with_a_key_succeeds : forall e0 e1 lib sha512 args0 occs0 free0 w w' k d0 n0 n0' args1 occs1 free1 v v' pub s1 b encrypted
    e x priv s stdout_is_tty stderr_is_tty status x',
  lib_ok lib -> (forall m, sha512 m <> []) ->
  (given OFast occs1 -> forall c c', lib ChaCha20Poly1305Ietf = Some c -> lib AES256GCM = Some c' -> forall seed, cs_keypair c seed = cs_keypair c' seed) ->
  succeeds e0 lib sha512 args0 occs0 free0 w w' -> asks_for_keys occs0 -> In k free0 -> k <> lit "-" -> is_file (components k) d0 n0 -> public_name n0 n0' ->
  filters e1 lib sha512 args1 occs1 free1 v v' -> asks_to_encrypt occs1 -> only_key OPublicKey pub occs1 ->
  files_in e1 (w_fs v) pub = content e0 (w_fs w') (d0 ++ [Normal n0']) ->
  u_input (w_ui v) = Some s1 -> supplied e1 (w_fs v) s1 free1 b -> w_stdout v' = w_stdout v ++ encrypted ->
  in_order e x -> files_in e (w_fs x) priv = content e0 (w_fs w') (components k) ->
  u_input (w_ui x) = Some s -> ends_in_error s = false -> flat s = encrypted ->
  main e lib sha512 (files_in e (w_fs x)) [lit "-d"; lit "--private-key"; priv] false stdout_is_tty stderr_is_tty x status x' -> status = 0.
Proof.
  intros e0 e1 lib sha512 args0 occs0 free0 w w' k d0 n0 n0' args1 occs1 free1 v v' pub s1 b cf e x priv s to te status x' Hl Hs Sm
    S0 A0 Ik Nk Fk Pn F1 A1 K1 Q1 I1 Su1 Eo (_ & _ & Nfa & Nst & Ro) Q2 Iu2 Ne Fs H.
  destruct (succeeds_keys lib sha512 Hl e0 _ _ _ _ _ _ _ _ _ S0 A0 Ik Nk Fk Pn Hs) as (c0 & seed & public & private & E0 & Cp & Cs & Rd). rewrite Cp in Q1. rewrite Cs in Q2.
  destruct (filters_encrypt lib sha512 e1 _ _ _ _ _ F1 A1) as (i & policy & force & c & fast & u & u2 & H1 & Fr & P1 & G1 & Iu & Fa).
  destruct (Rd force) as [Rp _].
  destruct (public_untouched sha512 _ _ _ _ _ _ _ _ _ _ P1 K1 (eq_trans (f_equal (fun z => read_file_lines z _) Q1) Rp) G1) as [-> ->].
  destruct (streamed lib Hl e1 _ _ _ _ _ _ _ _ _ _ H1 Fr (eq_trans Iu I1) Su1) as (cf' & Eo' & C1).
  assert (cf' = cf) as -> by (rewrite Eo' in Eo; apply app_inv_head in Eo; exact Eo).
  destruct (pipe_private sha512 (files_in e (w_fs x)) priv (snd (cs_keypair c0 seed)) to te (w_ui x)) as (u1 & E1 & E2 & Ep).
  { rewrite Q2. apply (Rd false). }
  refine (filter_succeeds lib sha512 e _ _ _ _ _ x status x' s _ u1 Nfa Nst Ro Iu2 Ne _ E1 E2 Ep H). rewrite Fs.
  refine (one_convertible lib Hl _ _ fast b cf (wf_public _) eq_refl _ C1).
  apply (pair_matches lib c0 seed fast E0). intros X. apply Sm, Fa, X.
Qed.
Print Assumptions C80_decryption_with_a_key_succeeds.

(** Every run of [rypt --password-file F --key-threshold V], where the file has at most 255 passwords and V is a number of
    passwords that can be required; and of [rypt -d --password-file F], where the file has enough of the passwords. *)
Theorem C80_encryption_with_passwords_succeeds : forall e lib sha512 v f t ps value k s stdin_is_tty stderr_is_tty status v',
  lib_ok lib -> lib ChaCha20Poly1305Ietf <> None -> in_order e v ->
  files_in e (w_fs v) f = Some t -> file_passwords t ps -> lenN ps <= 255 -> decimal value k -> 1 <= k <= lenN ps ->
  u_input (w_ui v) = Some s -> ends_in_error s = false ->
  main e lib sha512 (files_in e (w_fs v)) [lit "--password-file"; f; lit "--key-threshold"; value] stdin_is_tty false stderr_is_tty v status v' -> status = 0.
Proof.
  intros e lib sha512 v f t ps value k s ti te status v' Hl Ln (_ & _ & Nfa & Nst & Ro) Ef Fp L255 Dk Lk Iu Ne H.
  destruct (lib ChaCha20Poly1305Ietf) as [c0|] eqn:E0; [|contradiction].
  assert (Np : ps <> []) by (intros ->; unfold lenN in Lk; cbn in Lk; lia).
  destruct (pipe_passwords sha512 (files_in e (w_fs v)) f value k ps ti te (w_ui v)) as (u1 & E1 & E2 & Ep); try assumption.
  { rewrite Ef. apply password_file_run; assumption. }
  { eapply N.le_lt_trans; [exact L255|reflexivity]. }
  refine (filter_succeeds lib sha512 e _ _ _ _ _ v status v' s _ u1 Nfa Nst Ro Iu Ne _ E1 E2 Ep H).
  exact (passwords_convertible lib Hl c0 ps k _ E0 Lk L255).
Qed.
Print Assumptions C80_encryption_with_passwords_succeeds.

Theorem C80_decryption_with_passwords_succeeds : forall e1 lib sha512 args1 occs1 free1 v v' s1 rest1 ps b,
  lib_ok lib ->
  filters e1 lib sha512 args1 occs1 free1 v v' -> asks_to_encrypt occs1 -> only_passwords occs1 ->
  u_input (w_ui v) = Some s1 -> given_passwords (files_in e1 (w_fs v)) true s1 occs1 rest1 ps -> lenN ps < 2 ^ 64 ->
  supplied e1 (w_fs v) rest1 free1 b ->
  exists k fast encrypted er ser cod chunk,
    how_many occs1 (lenN ps) k /\ 1 <= k <= lenN ps /\ (fast = true <-> given OFast occs1) /\
    w_stdout v' = w_stdout v ++ encrypted /\
    random_ok er /\ encrypt_header lib (mkEncryptOptions (map (fun p => (1, Password p)) ps) (lenN ps) k fast) er = Ok (ser, cod, chunk) /\ begins_with_header ser encrypted /\
    forall e x f t qs s stdout_is_tty stderr_is_tty status x',
      in_order e x -> files_in e (w_fs x) f = Some t -> file_passwords t qs -> lenN qs < 2 ^ 64 -> enough k ps qs ->
      u_input (w_ui x) = Some s -> ends_in_error s = false -> flat s = encrypted ->
      no_accident (co_cs cod) (fst (cs_keypair (co_cs cod) (er_seed er))) (map Password qs) (map Password ps) (header_keys ser) ->
      main e lib sha512 (files_in e (w_fs x)) [lit "-d"; lit "--password-file"; f] false stdout_is_tty stderr_is_tty x status x' ->
      status = 0.
Proof.
  intros e1 lib sha512 args1 occs1 free1 v v' s1 rest1 ps b Hl F1 A1 O1 I1 G1 Ln Su1.
  destruct (filters_encrypt lib sha512 e1 _ _ _ _ _ F1 A1) as (i & policy & force & c & fast & u & u2 & H1 & Fr & P1 & C1 & Iu & Fa).
  destruct (encrypt_passwords sha512 _ _ _ _ _ _ _ _ _ _ _ P1 O1 (eq_trans Iu I1) G1 Ln C1) as (Iu1 & k & Hk & Lk & ->).
  destruct (streamed lib Hl e1 _ _ _ _ _ _ _ _ _ _ H1 Fr Iu1 Su1) as (cf & Eo & Cv).
  destruct (conversion_restored lib Hl _ _ _ _ _ _ (wf_passwords ps k Ln) Cv) as (er & ser & cod & chunk & Hr & He & Hh & Z).
  exists k, fast, cf, er, ser, cod, chunk. split; [exact Hk|]. split; [exact Lk|]. split; [exact Fa|]. split; [exact Eo|]. split; [exact Hr|]. split; [exact He|]. split; [exact Hh|].
  intros e x f t qs s to te status x' (_ & _ & Nfa & Nst & Ro) Ef Fp Lq En I2 Ne Fs Na H.
  assert (Nq : qs <> []).
  { intros ->. destruct En as (some & _ & Lsome & Isome). destruct some as [|p some]; [unfold lenN in Lsome; cbn in Lsome; lia|]. exact (Isome p (or_introl eq_refl)). }
  destruct (pipe_password_file sha512 (files_in e (w_fs x)) f qs to te (w_ui x)) as (u1 & E1 & E2 & Ep); try assumption.
  { rewrite Ef. apply password_file_run; assumption. }
  refine (filter_succeeds lib sha512 e _ _ _ _ _ x status x' s _ u1 Nfa Nst Ro I2 Ne _ E1 E2 Ep H). rewrite Fs.
  apply (Z (map Password qs) (decryption_passwords _ qs)).
  - unfold expression. cbn [eo_sub_creds eo_num_shares eo_threshold]. rewrite leaves_passwords. exact Na.
  - unfold expression. cbn [eo_sub_creds eo_num_shares eo_threshold]. apply sat_enough, En.
Qed.
Print Assumptions C80_decryption_with_passwords_succeeds.

(** ** Cases *)

Definition pipe_ui (b : bytes) : ui := mkUi (Some [RData b]) false false 0 false None [].
Lemma no_error_in b : ends_in_error [RData b] = false.
Proof. destruct b; reflexivity. Qed.
Lemma flat_data b : flat [RData b] = b.
Proof. destruct b as [|x b]; [reflexivity|apply app_nil_r]. Qed.
Ltac pipe_order := apply flow_in_order; reflexivity.

Lemma filters_intro e lib sha512 args occs free w w' : parse_options args = Ok (mkMatches occs free) -> to_stdout occs free -> args <> [] ->
  main e lib sha512 (files_in e (w_fs w)) args false false false w 0 w' -> filters e lib sha512 args occs free w w'.
Proof. intros P T N H. split; [apply options_mean, P|]. split; [exact T|]. exists false, false, false. split; [intros [E _]; contradiction|exact H]. Qed.

(** rypt -g me; then rypt --public-key me.pub < data > encrypted; and rypt -d --private-key me < encrypted. *)
Example C80_key_pairs_case : exists w' public private v' encrypted x',
  let v := flow_world "me.pub" public "x" [] (pipe_ui case_data) in
  let x := flow_world "me" private "x" [] (pipe_ui encrypted) in
  succeeds flow_names toy_lib case_digest flow_generate flow_generate_occs [lit "me"] case_start w' /\
  content flow_names (w_fs w') [Normal (lit "me.pub")] = Some public /\ content flow_names (w_fs w') (components (lit "me")) = Some private /\
  filters flow_names toy_lib case_digest [lit "--public-key"; lit "me.pub"] [mkOcc 0 OPublicKey (Some (lit "me.pub"))] [] v v' /\
  asks_to_encrypt [mkOcc 0 OPublicKey (Some (lit "me.pub"))] /\ only_key OPublicKey (lit "me.pub") [mkOcc 0 OPublicKey (Some (lit "me.pub"))] /\
  files_in flow_names (w_fs v) (lit "me.pub") = Some public /\ supplied flow_names (w_fs v) [RData case_data] [] case_data /\
  w_stdout v' = w_stdout v ++ encrypted /\ lenN encrypted = lenN case_data + 184 /\
  filters flow_names toy_lib case_digest [lit "-d"; lit "--private-key"; lit "me"] [mkOcc 0 ODecrypt None; mkOcc 1 OPrivateKey (Some (lit "me"))] [] x x' /\
  asks_to_decrypt [mkOcc 0 ODecrypt None; mkOcc 1 OPrivateKey (Some (lit "me"))] /\ only_key OPrivateKey (lit "me") [mkOcc 0 ODecrypt None; mkOcc 1 OPrivateKey (Some (lit "me"))] /\
  files_in flow_names (w_fs x) (lit "me") = Some private /\ supplied flow_names (w_fs x) [RData encrypted] [] encrypted /\
  w_stdout x' = case_data.
Proof.
  set (o1 := [mkOcc 0 OPublicKey (Some (lit "me.pub"))]). set (o2 := [mkOcc 0 ODecrypt None; mkOcc 1 OPrivateKey (Some (lit "me"))]).
  assert (Sm : given OFast o1 -> forall c c', toy_lib ChaCha20Poly1305Ietf = Some c -> toy_lib AES256GCM = Some c' -> forall seed, cs_keypair c seed = cs_keypair c' seed) by (intros X; exfalso; revert X; no_option).
  assert (A1 : asks_to_encrypt o1) by ask.
  assert (K1 : only_key OPublicKey (lit "me.pub") o1) by (exists [], 0%nat, []; split; [reflexivity|intros y []]).
  assert (A2 : asks_to_decrypt o2) by (split; [exists (mkOcc 0 ODecrypt None); split; [left; reflexivity|reflexivity]|ask]).
  assert (K2 : only_key OPrivateKey (lit "me") o2).
  { exists [mkOcc 0 ODecrypt None], 1%nat, []. split; [reflexivity|]. intros y [<-|[]]. cbn. unfold key_option. cbn. intuition discriminate. }
  destruct C74_key_pairs_case as (w' & public & private & _ & _ & _ & S0 & _ & Fk & _ & Cp & Cs & _).
  assert (Nk : lit "me" <> lit "-") by discriminate.
  set (v := flow_world "me.pub" public "x" [] (pipe_ui case_data)).
  assert (Ov : in_order flow_names v) by pipe_order.
  pose proof (plain_files_in _ _ _ _ (flow_at "me.pub" (w_fs v) public eq_refl (flow_first _ _ _ _))) as Fp.
  destruct (C56_every_run_ends flow_names toy_lib case_digest (files_in flow_names (w_fs v)) [lit "--public-key"; lit "me.pub"] false false false v toy_lib_ok (flow_spacious _ _ _ _)) as (s1 & v' & H1).
  assert (s1 = 0) as ->.
  { exact (C80_encryption_for_a_key_succeeds flow_names toy_lib case_digest _ _ _ case_start w' (lit "me") [] (lit "me") (lit "me.pub") flow_names v (lit "me.pub") [RData case_data] false false s1 v'
      toy_lib_ok flow_digest S0 flow_asks_keys (or_introl eq_refl) Nk Fk flow_me Ov (eq_trans Fp (eq_sym Cp)) eq_refl eq_refl H1). }
  assert (F1 : filters flow_names toy_lib case_digest [lit "--public-key"; lit "me.pub"] o1 [] v v').
  { exact (filters_intro _ _ _ _ _ _ _ _ (parse_public _) (or_intror (or_introl eq_refl)) ltac:(discriminate) H1). }
  assert (Su1 : supplied flow_names (w_fs v) [RData case_data] [] case_data) by (left; split; [left; reflexivity|symmetry; apply app_nil_r]).
  destruct (C80_key_pairs_through_pipes flow_names flow_names flow_names toy_lib case_digest _ _ _ case_start w' (lit "me") [] (lit "me") (lit "me.pub") _ _ _ v v' (lit "me.pub") [RData case_data] case_data
    toy_lib_ok flow_digest Sm S0 flow_asks_keys (or_introl eq_refl) Nk Fk flow_me F1 A1 K1 (eq_trans Fp (eq_sym Cp)) eq_refl Su1) as (cf & Eo & Lc & Z).
  set (x := flow_world "me" private "x" [] (pipe_ui cf)).
  assert (Ox : in_order flow_names x) by pipe_order.
  pose proof (plain_files_in _ _ _ _ (flow_at "me" (w_fs x) private eq_refl (flow_first _ _ _ _))) as Fs.
  destruct (C56_every_run_ends flow_names toy_lib case_digest (files_in flow_names (w_fs x)) [lit "-d"; lit "--private-key"; lit "me"] false false false x toy_lib_ok (flow_spacious _ _ _ _)) as (s2 & x' & H2).
  assert (s2 = 0) as ->.
  { exact (C80_decryption_with_a_key_succeeds flow_names flow_names toy_lib case_digest _ _ _ case_start w' (lit "me") [] (lit "me") (lit "me.pub") _ _ _ v v' (lit "me.pub") [RData case_data] case_data cf
      flow_names x (lit "me") [RData cf] false false s2 x'
      toy_lib_ok flow_digest Sm S0 flow_asks_keys (or_introl eq_refl) Nk Fk flow_me F1 A1 K1 (eq_trans Fp (eq_sym Cp)) eq_refl Su1 Eo Ox (eq_trans Fs (eq_sym Cs)) eq_refl (no_error_in cf) (flat_data cf) H2). }
  assert (F2 : filters flow_names toy_lib case_digest [lit "-d"; lit "--private-key"; lit "me"] o2 [] x x').
  { exact (filters_intro _ _ _ _ _ _ _ _ (parse_private (fun _ => None) _) (or_intror (or_introl eq_refl)) ltac:(discriminate) H2). }
  assert (Su2 : supplied flow_names (w_fs x) [RData cf] [] cf) by (left; split; [left; reflexivity|symmetry; apply flat_data]).
  pose proof (Z _ _ _ x x' (lit "me") [RData cf] F2 A2 K2 (eq_trans Fs (eq_sym Cs)) eq_refl Su2) as Zx.
  assert (Ll : lenN cf = lenN case_data + 184) by (apply Lc; vm_compute; discriminate).
  exists w', public, private, v', cf, x'. cbv zeta. fold v x.
  exact (conj S0 (conj Cp (conj Cs (conj F1 (conj A1 (conj K1 (conj Fp (conj Su1 (conj Eo (conj Ll (conj F2 (conj A2 (conj K2 (conj Fs (conj Su2 Zx))))))))))))))).
Qed.

(** rypt --password-file pw --key-threshold 2 < data > encrypted; and rypt -d --password-file pw < encrypted; the first
    file has three passwords (the same, which makes accidents impossible whatever the cipher), the second one. *)
Definition three_passwords : bytes := [x61; x0a; x20; x61; x0a; x61; x0a].
Lemma a_word : line_word [97] [[97]].
Proof. apply (lw_one [] 97 []); [constructor|constructor|]. unfold white. cbn. intuition discriminate. Qed.
Lemma no_newline c : c <> 10 -> ~ In 10 [c].
Proof. intros N [E|[]]. contradiction. Qed.
Lemma three_there : file_passwords three_passwords [[x61]; [x61]; [x61]].
Proof.
  exists [97; 10; 32; 97; 10; 97; 10], [[97]; [97]; [97]]. split; [repeat constructor|]. split; [reflexivity|]. split; [|reflexivity].
  apply (lws_line [97] [[97]] [32; 97; 10; 97; 10] [[97]; [97]]); [apply no_newline; discriminate|exact a_word|].
  apply (lws_line [32; 97] [[97]] [97; 10] [[97]]); [intros [E|[E|[]]]; discriminate E| |].
  - apply (lw_one [32] 97 []); [constructor; [unfold white; cbn; tauto|constructor]|constructor|]. unfold white. cbn. intuition discriminate.
  - apply (lws_line [97] [[97]] [] []); [apply no_newline; discriminate|exact a_word|constructor].
Qed.
Lemma one_there : file_passwords [x61] [[x61]].
Proof. exists [97], [[97]]. split; [repeat constructor|]. split; [reflexivity|]. split; [|reflexivity]. apply lws_last; [apply no_newline; discriminate|exact a_word]. Qed.

Example C80_passwords_case : exists v' encrypted x',
  let o1 := [mkOcc 0 OPasswordFile (Some (lit "pw")); mkOcc 1 OKeyThreshold (Some (lit "2"))] in
  let o2 := [mkOcc 0 ODecrypt None; mkOcc 1 OPasswordFile (Some (lit "pw"))] in
  let v := flow_world "pw" three_passwords "x" [] (pipe_ui case_data) in
  let x := flow_world "pw" [x61] "x" [] (pipe_ui encrypted) in
  filters flow_names toy_lib case_digest [lit "--password-file"; lit "pw"; lit "--key-threshold"; lit "2"] o1 [] v v' /\ asks_to_encrypt o1 /\ only_passwords o1 /\
  given_passwords (files_in flow_names (w_fs v)) true [RData case_data] o1 [RData case_data] [[x61]; [x61]; [x61]] /\
  w_stdout v' = w_stdout v ++ encrypted /\
  filters flow_names toy_lib case_digest [lit "-d"; lit "--password-file"; lit "pw"] o2 [] x x' /\ asks_to_decrypt o2 /\ only_passwords o2 /\
  given_passwords (files_in flow_names (w_fs x)) false [RData encrypted] o2 [RData encrypted] [[x61]] /\
  enough 2 [[x61]; [x61]; [x61]] [[x61]] /\ w_stdout x' = case_data.
Proof.
  set (o1 := [mkOcc 0 OPasswordFile (Some (lit "pw")); mkOcc 1 OKeyThreshold (Some (lit "2"))]). set (o2 := [mkOcc 0 ODecrypt None; mkOcc 1 OPasswordFile (Some (lit "pw"))]).
  assert (A1 : asks_to_encrypt o1) by ask. assert (O1 : only_passwords o1) by ask. assert (O2 : only_passwords o2) by ask.
  assert (A2 : asks_to_decrypt o2) by (split; [exists (mkOcc 0 ODecrypt None); split; [left; reflexivity|reflexivity]|ask]).
  assert (D2 : decimal (lit "2") 2) by (apply CliProofs3.parse_usize_iff; reflexivity).
  set (v := flow_world "pw" three_passwords "x" [] (pipe_ui case_data)).
  assert (Ov : in_order flow_names v) by pipe_order.
  pose proof (plain_files_in _ _ _ _ (flow_at "pw" (w_fs v) three_passwords eq_refl (flow_first _ _ _ _))) as Fp.
  destruct (C56_every_run_ends flow_names toy_lib case_digest (files_in flow_names (w_fs v)) [lit "--password-file"; lit "pw"; lit "--key-threshold"; lit "2"] false false false v toy_lib_ok (flow_spacious _ _ _ _)) as (s1 & v' & H1).
  assert (s1 = 0) as ->.
  { refine (C80_encryption_with_passwords_succeeds flow_names toy_lib case_digest v (lit "pw") three_passwords [[x61]; [x61]; [x61]] (lit "2") 2 [RData case_data] false false s1 v'
      toy_lib_ok _ Ov Fp three_there _ D2 _ eq_refl eq_refl H1); [discriminate|vm_compute; discriminate|vm_compute; split; discriminate]. }
  assert (F1 : filters flow_names toy_lib case_digest [lit "--password-file"; lit "pw"; lit "--key-threshold"; lit "2"] o1 [] v v').
  { exact (filters_intro _ _ _ _ _ _ _ _ (parse_passwords _ _) (or_intror (or_introl eq_refl)) ltac:(discriminate) H1). }
  assert (G1 : given_passwords (files_in flow_names (w_fs v)) true [RData case_data] o1 [RData case_data] [[x61]; [x61]; [x61]]).
  { right. split; [exists OPasswordFile; split; [unfold key_option; cbn; tauto|eexists; split; [left; reflexivity|reflexivity]]|].
    apply (pp_file _ _ _ _ (lit "pw") three_passwords [[x61]; [x61]; [x61]] _ _ []); [reflexivity|reflexivity|exact Fp|exact three_there|].
    apply pp_other; [cbn; intuition discriminate|constructor]. }
  assert (Su1 : supplied flow_names (w_fs v) [RData case_data] [] case_data) by (left; split; [left; reflexivity|symmetry; apply app_nil_r]).
  assert (Ln : lenN [[x61]; [x61]; [x61]] < 2 ^ 64) by reflexivity.
  assert (Hm : forall k, how_many o1 (lenN [[x61]; [x61]; [x61]]) k -> k = 2).
  { intros k (Hk & _). assert (X : decimal (lit "2") k) by (apply Hk; exists (mkOcc 1 OKeyThreshold (Some (lit "2"))); split; [right; left; reflexivity|split; reflexivity]).
    apply CliProofs3.parse_usize_iff in X. vm_compute in X. congruence. }
  assert (En : enough 2 [[x61]; [x61]; [x61]] [[x61]]).
  { exists [[x61]; [x61]]. split; [repeat constructor|]. split; [vm_compute; discriminate|]. intros p [<-|[<-|[]]]; left; reflexivity. }
  destruct (C80_decryption_with_passwords_succeeds flow_names toy_lib case_digest _ _ _ v v' [RData case_data] [RData case_data] [[x61]; [x61]; [x61]] case_data toy_lib_ok F1 A1 O1 eq_refl G1 Ln Su1)
    as (k & fast & cf & er & ser & cod & chunk & Hk & Lk & _ & Eo & Hr & He & Hh & Z).
  destruct (C80_passwords_through_pipes flow_names flow_names toy_lib case_digest _ _ _ v v' [RData case_data] [RData case_data] [[x61]; [x61]; [x61]] case_data toy_lib_ok F1 A1 O1 eq_refl G1 Ln Su1)
    as (k' & fast' & cf' & er' & ser' & cod' & chunk' & Hk' & Lk' & _ & Eo' & Hr' & He' & _ & Z').
  assert (cf' = cf) as -> by (rewrite Eo in Eo'; apply app_inv_head in Eo'; congruence).
  apply Hm in Hk, Hk'. subst k k'.
  assert (Na : forall cs epk cts, no_accident cs epk (map Password [[x61]]) (map Password [[x61]; [x61]; [x61]]) cts).
  { intros cs epk cts i c ct d Hi _ [<-|[]] _. destruct i as [|[|[|[|i]]]]; cbn in Hi; try discriminate Hi; injection Hi as <-; reflexivity. }
  set (x := flow_world "pw" [x61] "x" [] (pipe_ui cf)).
  assert (Ox : in_order flow_names x) by pipe_order.
  pose proof (plain_files_in _ _ _ _ (flow_at "pw" (w_fs x) [x61] eq_refl (flow_first _ _ _ _))) as Fs.
  destruct (C56_every_run_ends flow_names toy_lib case_digest (files_in flow_names (w_fs x)) [lit "-d"; lit "--password-file"; lit "pw"] false false false x toy_lib_ok (flow_spacious _ _ _ _)) as (s2 & x' & H2).
  assert (s2 = 0) as ->.
  { exact (Z flow_names x (lit "pw") [x61] [[x61]] [RData cf] false false s2 x' Ox Fs one_there ltac:(reflexivity) En eq_refl (no_error_in cf) (flat_data cf) (Na _ _ _) H2). }
  assert (F2 : filters flow_names toy_lib case_digest [lit "-d"; lit "--password-file"; lit "pw"] o2 [] x x').
  { exact (filters_intro _ _ _ _ _ _ _ _ (parse_password_file (fun _ => None) _) (or_intror (or_introl eq_refl)) ltac:(discriminate) H2). }
  assert (G2 : given_passwords (files_in flow_names (w_fs x)) false [RData cf] o2 [RData cf] [[x61]]).
  { right. split; [exists OPasswordFile; split; [unfold key_option; cbn; tauto|eexists; split; [right; left; reflexivity|reflexivity]]|].
    apply pp_other; [cbn; intuition discriminate|].
    apply (pp_file _ _ _ _ (lit "pw") [x61] [[x61]] _ _ []); [reflexivity|reflexivity|exact Fs|exact one_there|constructor]. }
  assert (Su2 : supplied flow_names (w_fs x) [RData cf] [] cf) by (left; split; [left; reflexivity|symmetry; apply flat_data]).
  destruct (Z' _ _ _ x x' [RData cf] [RData cf] [[x61]] F2 A2 O2 eq_refl G2 Su2 (Na _ _ _)) as [_ Zx].
  exists v', cf, x'. cbv zeta. fold o1 o2 v x.
  exact (conj F1 (conj A1 (conj O1 (conj G1 (conj Eo (conj F2 (conj A2 (conj O2 (conj G2 (conj En Zx)))))))))).
Qed.

(** Which passwords are enough does not depend on their order; too few are not. *)
Example C80_enough_case : enough 2 [[x61]; [x62]; [x63]] [[x63]; [x00]; [x61]] /\ ~ enough 2 [[x61]; [x62]; [x63]] [[x63]; [x63]].
Proof.
  split.
  - exists [[x61]; [x63]]. split; [constructor; constructor; constructor; constructor|]. split; [vm_compute; discriminate|]. intros p [<-|[<-|[]]]; cbn; tauto.
  - intros (some & S & L & I). assert (A : forall p, In p some -> p = [x63]) by (intros p Ip; specialize (I p Ip); cbn in I; intuition).
    inversion S as [|a l k S1|a l k S1]; subst; [specialize (A [x61] (or_introl eq_refl)); discriminate A|].
    inversion S1 as [|a l k S2|a l k S2]; subst; [specialize (A [x62] (or_introl eq_refl)); discriminate A|].
    inversion S2 as [|a l k S3|a l k S3]; subst; inversion S3; subst; vm_compute in L; apply L; reflexivity.
Qed.

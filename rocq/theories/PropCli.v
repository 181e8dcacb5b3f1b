(** C36, C37, C48: from the command line to credentials. *)
From Coq.Strings Require Import Byte String.
From Coq Require Import List NArith ZArith Bool PeanoNat Permutation Lia.
From Verif Require Import Base BaseFacts Shamir Errors Io Text Util CliErrors Getopts Crypto HeaderCrypto CredSpec KeyFiles Ui CliCreds CliSpec CliProofs CliProofs2 CliProofs3 CliProofs4.
Import ListNotations.
Local Open Scope N_scope.

(** ** C36 *)

(** A command line that spells an expression gives the credential the expression stands for. *)
Theorem C36_spelled_credentials_are_accepted : forall sha512 files args ts m th mem force u u' c,
  says args ts -> parse_options args = Ok m ->
  spells true th mem (default_tokens ts) -> stands_for sha512 files force u (Group th mem) u' c ->
  get_encrypt_credential sha512 files m force u = (Ok c, u').
Proof.
  intros sha512 files args ts m th mem force u u' c S P Sp V. unfold get_encrypt_credential, bind_act, lift.
  rewrite (says_tokens _ _ _ S P). eapply parse_complete; eassumption.
Qed.
Print Assumptions C36_spelled_credentials_are_accepted.

(** Conversely an accepted command line spells its credential; the credential is well-formed.  For share counts
    that do not overflow. *)
Theorem C36_accepted_arguments_spell_the_credential : forall sha512 files args m force u c u',
  parse_options args = Ok m -> get_encrypt_credential sha512 files m force u = (Ok c, u') -> fits c ->
  exists ts th mem, Forall2 occ_token (credential_occs m) ts /\ spells true th mem (default_tokens ts) /\
    stands_for sha512 files force u (Group th mem) u' c /\ wf_cred c /\ thresholds_fit c.
Proof.
  intros sha512 files args m force u c u' P H F. destruct (get_encrypt_inv _ _ _ _ _ _ _ _ P H) as (ts & Ft & Hp).
  destruct (parse_sound _ _ _ _ _ _ _ Hp F) as (th & mem & S & V). exists ts, th, mem.
  split; [exact Ft|]. split; [exact S|]. split; [exact V|]. split; [eapply wf_of|eapply thresholds_of]; eassumption.
Qed.
Print Assumptions C36_accepted_arguments_spell_the_credential.

(** Reading the arguments crashes only with a private key file, which is refused, so never on encryption. *)
Theorem C36_never_aborts : forall sha512 files m force u, fst (get_encrypt_credential sha512 files m force u) <> Panic.
Proof.
  intros sha512 files m force u. destruct (get_encrypt_credential sha512 files m force u) as [r u'] eqn:E. intros Ep. cbn [fst] in Ep. subst r.
  unfold get_encrypt_credential in E. apply bind_panic in E as [E|(ts & u1 & _ & E)].
  - unfold lift in E. injection E as E _. exact (extract_no_panic _ E).
  - apply parse_panic in E as (t & v & v' & _ & K & E). pose proof E as E0. apply read_token_panic in E as (f & -> & _); [|exact K]. discriminate E0.
Qed.
Print Assumptions C36_never_aborts.

(** The overflow: the credential claims to have one share, but its members have 2^64 + 1. *)
Definition overflow_args : list text :=
  map lit ["--key-shares"; "18446744073709551615"; "--password-file"; "f"; "--key-shares"; "2"; "--password-file"; "f"]%string.
Theorem C36_accepted_credentials_are_wf_refuted : exists sha512 files args m force u c u',
  parse_options args = Ok m /\ get_encrypt_credential sha512 files m force u = (Ok c, u') /\ ~ wf_cred c.
Proof.
  exists (fun b => b), (fun _ => Some [x61]), overflow_args.
  eexists _, false, (mkUi None false false 0 false None []), _, _. split; [vm_compute; reflexivity|]. split; [vm_compute; reflexivity|].
  intros W. apply wf_total in W. vm_compute in W. discriminate W.
Qed.
Print Assumptions C36_accepted_credentials_are_wf_refuted.

(** ** C37 *)

(** An accepted command line gives the credentials of the key arguments in order, and no others; none of them is
    a public key or a group. *)
Theorem C37_accepted_lists_are_flat : forall sha512 files args m force u cs u',
  parse_options args = Ok m -> get_decrypt_credentials sha512 files m force u = (Ok cs, u') ->
  exists ts, Forall2 occ_token (credential_occs m) ts /\ Forall key_token ts /\
    reads sha512 files Decrypt force u (default_tokens ts) u' cs /\ cs <> [] /\ Forall flat_cred cs.
Proof.
  intros sha512 files args m force u cs u' P H. destruct (get_decrypt_inv _ _ _ _ _ _ _ _ P H) as (ts & F & Hd).
  destruct (decrypt_tokens_ok _ _ _ _ _ _ _ Hd) as [R K]. exists ts. split; [exact F|].
  split; [destruct ts; [constructor|exact K]|]. split; [exact R|]. split; [|eapply reads_flat; exact R].
  eapply reads_key; [exact R|exact K|]. destruct ts; discriminate.
Qed.
Print Assumptions C37_accepted_lists_are_flat.

Theorem C37_flat_lists_are_accepted : forall sha512 files args ts m force u cs u',
  says args ts -> parse_options args = Ok m -> Forall key_token ts ->
  reads sha512 files Decrypt force u (default_tokens ts) u' cs -> lenN cs < 2 ^ 64 ->
  get_decrypt_credentials sha512 files m force u = (Ok cs, u').
Proof.
  intros sha512 files args ts m force u cs u' S P K R L. unfold get_decrypt_credentials, bind_act at 1, lift at 1.
  rewrite (says_tokens _ _ _ S P). eapply decrypt_tokens_run; [exact R| |destruct ts; discriminate|exact L].
  destruct ts; [repeat constructor|exact K].
Qed.
Print Assumptions C37_flat_lists_are_accepted.

(** Thresholds, shares, groups and public keys are refused, wherever they stand. *)
Theorem C37_combinators_and_public_keys_are_refused : forall sha512 files args m x force u cs u',
  parse_options args = Ok m -> In x (m_occs m) -> encryption_only (o_opt x) ->
  get_decrypt_credentials sha512 files m force u <> (Ok cs, u').
Proof.
  intros sha512 files args m x force u cs u' P Ix Ex H.
  destruct (get_decrypt_inv _ _ _ _ _ _ _ _ P H) as (ts & F & Hd).
  assert (In x (credential_occs m)) as Ic by (apply filter_In; split; [exact Ix|destruct (o_opt x); try destruct Ex; reflexivity]).
  destruct (forall2_in_l _ _ _ _ F Ic) as (t & It & T).
  rewrite default_same in Hd by (intros ->; destruct It).
  destruct (decrypt_tokens_ok _ _ _ _ _ _ _ Hd) as [R K].
  destruct (encryption_only_token x t Ex T) as [N|Hp].
  - rewrite Forall_forall in K. exact (N (K t It)).
  - eapply reads_no_public; eassumption.
Qed.
Print Assumptions C37_combinators_and_public_keys_are_refused.

(** The later stages never meet an unexpected credential: the only crash is that of C45. *)
Theorem C37_only_private_key_files_crash : forall sha512 files m force u u',
  get_decrypt_credentials sha512 files m force u = (Panic, u') ->
  exists ts f, extract_tokens m = Ok ts /\ In (PrivateKeyFile f) ts /\
    read_file_lines (files f) (private_key_line sha512 force) = Panic.
Proof.
  intros sha512 files m force u u' H. apply get_decrypt_panic in H as [H|(ts & E & H)]; [exfalso; exact (extract_no_panic _ H)|].
  apply decrypt_panic in H as (t & v & v' & It & K & H). apply read_token_panic in H as (f & -> & H); [|exact K].
  exists ts, f. split; [exact E|]. split; [|exact H]. destruct ts as [|x ts]; [destruct It as [It|[]]; discriminate It|exact It].
Qed.
Print Assumptions C37_only_private_key_files_crash.

(** ** C48 *)

(** With every option on its own, the credential arguments are taken in the order in which they were written. *)
Theorem C48_arguments_in_order : forall args ts m, says args ts -> parse_options args = Ok m -> extract_tokens m = Ok ts.
Proof. intros args ts m. apply says_tokens. Qed.
Print Assumptions C48_arguments_in_order.

(** In general the tokens are those of the credential options, each once.  They are in order if no two options
    share an argument; otherwise they are all in a single argument, and the result does not depend on the order. *)
Theorem C48_merged_arguments_are_refused_or_unordered : forall sha512 files args m ts,
  parse_options args = Ok m -> extract_tokens m = Ok ts ->
  exists ordered, Forall2 occ_token (credential_occs m) ordered /\ Permutation ts ordered /\
    (NoDup (map o_pos (credential_occs m)) -> ts = ordered) /\
    forall d force u c u', parse_complex_credential sha512 files d force ts u = (Ok c, u') ->
      parse_complex_credential sha512 files d force ordered u = (Ok c, u').
Proof. intros sha512 files args m ts P E. apply extract_order; [eapply parse_options_later; exact P|exact E]. Qed.
Print Assumptions C48_merged_arguments_are_refused_or_unordered.

(** ** Cases *)

Definition case_files (f : text) : option bytes :=
  if text_eqb f (lit "keys") then Some (utf8 (lit "alpha" ++ [10] ++ lit "beta" ++ [10])) else None.
Definition case_sha (b : bytes) : bytes := repeat x00 64.
Definition case_no_tty : ui := mkUi None false false 0 false None [].

(** rypt -t 2 "-(" --key-shares 3 --password-file keys --require-all-keys "-)" --password-file=keys file *)
Definition case_args : list text :=
  map lit ["-t"; "2"; "-("; "--key-shares"; "3"; "--password-file"; "keys"; "--require-all-keys"; "-)"; "--password-file=keys"; "file"]%string.
Definition case_tokens : list token :=
  [KeyThreshold 2; StartGroup; KeyShares 3; PasswordFile (lit "keys"); RequireAllKeys; EndGroup; PasswordFile (lit "keys")].
Definition case_members : members :=
  MGroup 1 (Group (Some AllKeys) (MKey 3 (PasswordFile (lit "keys")) MNil)) (MKey 1 (PasswordFile (lit "keys")) MNil).
Definition case_cred : cred :=
  Complex [(1, Complex [(3, Password (utf8 (lit "alpha"))); (3, Password (utf8 (lit "beta")))] 6 6);
           (1, Password (utf8 (lit "alpha"))); (1, Password (utf8 (lit "beta")))] 3 2.

Lemma case_says : says case_args case_tokens.
Proof.
  change case_args with ([lit "-t"; lit "2"] ++ [lit "-("] ++ [lit "--key-shares"; lit "3"] ++ [lit "--password-file"; lit "keys"] ++
    [lit "--require-all-keys"] ++ [lit "-)"] ++ [lit "--password-file=keys"] ++ [lit "file"]).
  eapply (sy_credential OKeyThreshold); [apply (sl_short_value OKeyThreshold); reflexivity|constructor; apply parse_usize_iff; vm_compute; reflexivity|].
  eapply (sy_credential OStartGroup); [apply (sl_short OStartGroup); reflexivity|constructor|].
  eapply (sy_credential OKeyShares); [apply (sl_long_value OKeyShares); reflexivity|constructor; apply parse_usize_iff; vm_compute; reflexivity|].
  eapply (sy_credential OPasswordFile); [apply (sl_long_value OPasswordFile); reflexivity|constructor|].
  eapply (sy_credential ORequireAllKeys); [apply (sl_long ORequireAllKeys); reflexivity|constructor|].
  eapply (sy_credential OEndGroup); [apply (sl_short OEndGroup); reflexivity|constructor|].
  eapply (sy_credential OPasswordFile); [apply (sl_long_equals OPasswordFile (lit "keys")); reflexivity|constructor|].
  apply sy_free; [intros a' E; discriminate E|constructor].
Qed.

Example C36_case : exists m,
  parse_options case_args = Ok m /\ spells true (Some (Threshold 2)) case_members (default_tokens case_tokens) /\
  stands_for case_sha case_files false case_no_tty (Group (Some (Threshold 2)) case_members) case_no_tty case_cred /\
  fits case_cred /\ get_encrypt_credential case_sha case_files m false case_no_tty = (Ok case_cred, case_no_tty).
Proof.
  eexists. split; [vm_compute; reflexivity|]. split; [|split; [|split; [|vm_compute; reflexivity]]].
  - apply sp_threshold. apply (sp_group true None _ _ (Some AllKeys) _ [KeyShares 3; PasswordFile (lit "keys"); RequireAllKeys]).
    + apply sp_key_shares; [reflexivity|exact I|]. apply sp_all. constructor.
    + apply sp_key; [exact I|]. constructor.
  - apply (sf_group _ _ _ (Some (Threshold 2))); [|discriminate|vm_compute; reflexivity|vm_compute; split; discriminate].
    eapply ms_group; [|eapply (ms_key _ _ _ _ _ _ _ _ _ [Password (utf8 (lit "alpha")); Password (utf8 (lit "beta"))] []); [vm_compute; reflexivity|constructor]].
    apply (sf_group _ _ _ (Some AllKeys) _ _ _ [(3, Password (utf8 (lit "alpha"))); (3, Password (utf8 (lit "beta")))]); [|discriminate|vm_compute; reflexivity|vm_compute; split; discriminate].
    eapply (ms_key _ _ _ 3 _ _ _ _ _ [Password (utf8 (lit "alpha")); Password (utf8 (lit "beta"))] []); [vm_compute; reflexivity|constructor].
  - vm_compute. auto 10.
Qed.

Example C37_case : exists m,
  says (map lit ["-d"; "--password-file"; "keys"; "--password-file=keys"]%string) [PasswordFile (lit "keys"); PasswordFile (lit "keys")] /\
  parse_options (map lit ["-d"; "--password-file"; "keys"; "--password-file=keys"]%string) = Ok m /\
  get_decrypt_credentials case_sha case_files m false case_no_tty =
    (Ok [Password (utf8 (lit "alpha")); Password (utf8 (lit "beta")); Password (utf8 (lit "alpha")); Password (utf8 (lit "beta"))], case_no_tty).
Proof.
  eexists. split; [|split; [vm_compute; reflexivity|vm_compute; reflexivity]].
  change (map lit ["-d"; "--password-file"; "keys"; "--password-file=keys"]%string) with
    ([lit "-d"] ++ [lit "--password-file"; lit "keys"] ++ [lit "--password-file=keys"] ++ []).
  eapply (sy_other ODecrypt); [apply (sl_short ODecrypt); reflexivity|reflexivity|].
  eapply (sy_credential OPasswordFile); [apply (sl_long_value OPasswordFile); reflexivity|constructor|].
  eapply (sy_credential OPasswordFile); [apply (sl_long_equals OPasswordFile (lit "keys")); reflexivity|constructor|]. constructor.
Qed.

Example C37_refused_case : exists m x,
  parse_options (map lit ["-d"; "--public-key-text"; "00"; "-p"]%string) = Ok m /\ In x (m_occs m) /\ encryption_only (o_opt x).
Proof. eexists _, _. split; [vm_compute; reflexivity|]. split; [right; left; reflexivity|exact I]. Qed.

(** -pap: three options in one argument; the tokens are not in order, the result is the same. *)
Example C48_case : exists m ts,
  parse_options [lit "-pap"] = Ok m /\ extract_tokens m = Ok ts /\ ts = [InteractivePassword; InteractivePassword; RequireAllKeys] /\
  map o_opt (credential_occs m) = [OPassword; ORequireAllKeys; OPassword].
Proof. eexists _, _. split; [vm_compute; reflexivity|]. split; [vm_compute; reflexivity|]. split; reflexivity. Qed.

(** -ppp -t 2 is refused although the order is clear. *)
Example C48_refused_case : exists m,
  parse_options [lit "-ppp"; lit "-t"; lit "2"] = Ok m /\ extract_tokens m = Err CMergedArguments.
Proof. eexists. split; [vm_compute; reflexivity|vm_compute; reflexivity]. Qed.

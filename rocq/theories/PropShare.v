(** C94: files that are encrypted for the keys in several files, with thresholds, shares and groups, are restored by later
    runs of the program, perhaps on other machines, that are given files with enough of the keys; and only by those.

    Specification: ShareSpec ([asks_for], [holds], [matched], [row]); see also FlowSpec ([succeeds], [plain], [content],
    [all_there]), CliSpec ([says], [spells], [needed]), CredSpec ([sat], [matches], [no_accident], [decryption_cred]) and
    HeaderIoSpec ([begins_with_header]). *)
From Coq.Strings Require Import Byte String.
From Coq Require Import List NArith ZArith Bool PeanoNat Lia.
From Verif Require Import Base BaseFacts Shamir Errors Io HeaderIo HeaderIoSpec StreamSpec Text Util CliErrors Getopts Crypto HeaderCrypto CredSpec FileCrypto KeyFiles Ui UiSpec Paths PathSpec PathProofs CliCreds Cli CliSpec OptSpec OptProofs CmdSpec CmdProofs Progress Fs Commands FsSpec
  HeaderCryptoProofs4 FsProofs12 ToyCrypto FsCases FsCases2 FlowSpec FlowProofs FlowProofs2 FlowProofs3 FlowProofs4 FlowCases PipeSpec PipeProofs PipeProofs2 PipeProofs3 PropFs2 PropPipe ShareSpec ShareProofs.
Import ListNotations.
Local Open Scope N_scope.

(** A successful run encrypts the file [f]; its arguments spell the expression [Group th mem] over key files, which asks for
    [c].  Then the encrypted file begins with a header for [c], and for all credentials [D]: if [D] satisfies [c], the file can be
    decrypted with [D]; and whenever a run succeeds that decrypts a copy [g] of the file and is given files with the keys [D],
    then [D] satisfies [c] and the run restores the content. *)
Theorem C94_shared_files : forall lib sha512 e1 args1 occs1 free1 v v' ts th mem c f b dir n,
  lib_ok lib ->
  succeeds e1 lib sha512 args1 occs1 free1 v v' -> asks_to_encrypt occs1 ->
  says args1 ts -> ts <> [] -> spells true th mem ts -> asks_for sha512 (files_in e1 (w_fs v)) (Group th mem) c ->
  all_there e1 (w_fs v) free1 -> In f free1 -> f <> lit "-" -> plain e1 (w_fs v) f b -> is_file (components f) dir n -> ~ ends_in_dot n ->
  exists subs total k fast encrypted er ser cod chunk,
    c = Complex subs total k /\ (fast = true <-> given OFast occs1) /\
    content e1 (w_fs v') (dir ++ [Normal (n ++ lit ".rypt")]) = Some encrypted /\
    random_ok er /\ encrypt_header lib (mkEncryptOptions subs total k fast) er = Ok (ser, cod, chunk) /\ begins_with_header ser encrypted /\
    forall D, Forall (decryption_cred (co_cs cod)) D ->
      no_accident (co_cs cod) (fst (cs_keypair (co_cs cod) (er_seed er))) D (leaves c) (header_keys ser) ->
      (sat (co_cs cod) D c -> convertible lib (DoDecrypt D) encrypted) /\
      forall e2 args2 occs2 free2 x x' ts2 g,
        succeeds e2 lib sha512 args2 occs2 free2 x x' -> asks_to_decrypt occs2 ->
        says args2 ts2 -> ts2 <> [] -> holds sha512 (files_in e2 (w_fs x)) ts2 D -> lenN D < 2 ^ 64 ->
        all_there e2 (w_fs x) free2 -> In g free2 -> g <> lit "-" -> plain e2 (w_fs x) g encrypted ->
        sat (co_cs cod) D c /\
        exists dir' n', is_file (components g) dir' (n' ++ lit ".rypt") /\
          (n' <> lit "." -> n' <> lit ".." -> content e2 (w_fs x') (dir' ++ [Normal n']) = Some b).
Proof. intros. eapply shared_files; eassumption. Qed.
Print Assumptions C94_shared_files.

(** The same for a list of key files without groups and shares, and at most one of --key-threshold and --require-all-keys:
    [k] of the keys are needed, and sufficient. *)
Theorem C94_k_of_n : forall lib sha512 e1 args1 occs1 free1 v v' ts th keys R k f b dir n,
  lib_ok lib ->
  succeeds e1 lib sha512 args1 occs1 free1 v v' -> asks_to_encrypt occs1 ->
  says args1 ts -> ts <> [] -> spells true th (row keys) ts -> all_recipients sha512 (files_in e1 (w_fs v)) keys R ->
  k = needed th (lenN R) -> 1 <= k <= lenN R -> lenN R < 2 ^ 64 ->
  all_there e1 (w_fs v) free1 -> In f free1 -> f <> lit "-" -> plain e1 (w_fs v) f b -> is_file (components f) dir n -> ~ ends_in_dot n ->
  exists fast encrypted er ser cod chunk,
    (fast = true <-> given OFast occs1) /\
    content e1 (w_fs v') (dir ++ [Normal (n ++ lit ".rypt")]) = Some encrypted /\
    random_ok er /\ encrypt_header lib (mkEncryptOptions (map (fun c => (1, c)) R) (lenN R) k fast) er = Ok (ser, cod, chunk) /\ begins_with_header ser encrypted /\
    forall D, Forall (decryption_cred (co_cs cod)) D ->
      no_accident (co_cs cod) (fst (cs_keypair (co_cs cod) (er_seed er))) D R (header_keys ser) ->
      (matched (co_cs cod) k R D -> convertible lib (DoDecrypt D) encrypted) /\
      forall e2 args2 occs2 free2 x x' ts2 g,
        succeeds e2 lib sha512 args2 occs2 free2 x x' -> asks_to_decrypt occs2 ->
        says args2 ts2 -> ts2 <> [] -> holds sha512 (files_in e2 (w_fs x)) ts2 D -> lenN D < 2 ^ 64 ->
        all_there e2 (w_fs x) free2 -> In g free2 -> g <> lit "-" -> plain e2 (w_fs x) g encrypted ->
        matched (co_cs cod) k R D /\
        exists dir' n', is_file (components g) dir' (n' ++ lit ".rypt") /\
          (n' <> lit "." -> n' <> lit ".." -> content e2 (w_fs x') (dir' ++ [Normal n']) = Some b).
Proof.
  intros lib sha512 e1 args1 occs1 free1 v v' ts th keys R k f b dir n Hl Su As Sy Nt Sp Ar -> Bo Lr At If Nf Pf Fn Nd.
  pose proof (all_simple _ _ (w_ui v) _ _ Ar) as Si.
  assert (Af : asks_for sha512 (files_in e1 (w_fs v)) (Group th (row keys)) (Complex (map (fun c => (1, c)) R) (lenN R) (needed th (lenN R)))).
  { rewrite <- (total_ones R) in Bo, Lr |- *. constructor; [exact (row_asks _ _ _ _ Ar)| |exact Lr|exact Bo].
    intros E. rewrite E in Bo. cbn in Bo. lia. }
  destruct (shared_files lib sha512 Hl e1 _ _ _ _ _ _ _ _ _ _ _ _ _ Su As Sy Nt Sp Af At If Nf Pf Fn Nd) as (subs & total & k & fast & cf & er & ser & cod & chunk & E & Fa & Ec & Hr & He & Hh & Z).
  injection E as <- <- <-. exists fast, cf, er, ser, cod, chunk. do 5 (split; [assumption|]). intros D HD Na.
  destruct (Z D HD) as [Z1 Z2]; [rewrite (leaves_ones _ _ _ Si); exact Na|]. pose proof (sat_matched (co_cs cod) R D (lenN R) (needed th (lenN R)) Si) as Sm.
  split; [intros M; apply Z1, Sm, M|]. intros e2 args2 occs2 free2 x x' ts2 g Su2 As2 Sy2 Nt2 Ho Ld At2 Ig Ng Pg.
  destruct (Z2 _ _ _ _ _ _ _ _ Su2 As2 Sy2 Nt2 Ho Ld At2 Ig Ng Pg) as [Sa Rs]. split; [apply Sm, Sa|exact Rs].
Qed.
Print Assumptions C94_k_of_n.

(** ** Such runs succeed *)

(** Every run with -K encrypts one file if nothing stands in the way, whatever expression over key files its arguments spell.
    (What can be encrypted at all: C81_what_can_be_encrypted.) *)
Theorem C94_encryption_succeeds : forall e lib sha512 args occs v ts th mem c f b dir n stdin_is_tty stdout_is_tty stderr_is_tty status v',
  lib_ok lib -> in_order e v ->
  means 0 args occs [f] -> asks_to_encrypt occs -> plain_options occs -> ~ given OFast occs ->
  says args ts -> ts <> [] -> spells true th mem ts -> asks_for sha512 (files_in e (w_fs v)) (Group th mem) c ->
  file_argument f -> plain e (w_fs v) f b -> is_file (components f) dir n -> ~ ends_in_dot n -> ~ (exists a, a <> [] /\ n = a ++ lit ".rypt") ->
  free_names e (w_fs v) [dir ++ [Normal (n ++ lit ".rypt")]] -> convertible lib (DoEncrypt c false) b ->
  main e lib sha512 (files_in e (w_fs v)) args stdin_is_tty stdout_is_tty stderr_is_tty v status v' -> status = 0.
Proof.
  intros e lib sha512 args occs v ts th mem c f b dir n ti to te status v' Hl Io Me As (K & On & Op) Nfa Sy Nt Sp Af (Wf & Tf & Nf) Pf Ff Nd Nr (l & Et & _ & Fr) Cv H.
  pose proof (add_rypt _ dir n Ff (path_ok_name _ _ _ (components_ok f) Ff) Nd Nr) as Eq. pose proof (proj2 (options_read args (mkMatches occs [f])) (conj Me On)) as Po.
  assert (Ng : forall o, In o [OStream; OSuffix; OForce; OVerbose; OQuiet; ODiscardInputs] -> ~ given o occs) by (intros o Io' G; exact (Op o G Io')).
  destruct (line_encrypt sha512 (files_in e (w_fs v)) args occs f _ c ti to te (w_ui v) None Po Nf Tf (Ng OStream ltac:(cbn; tauto)) (Ng OSuffix ltac:(cbn; tauto)) (Ng OForce ltac:(cbn; tauto)) (Ng OVerbose ltac:(cbn; tauto)) (Ng OQuiet ltac:(cbn; tauto)) K (Ng ODiscardInputs ltac:(cbn; tauto)) Nfa (mode_encrypt _ _ As) Eq) as (u & Ep & Ru).
  { intros u1 _ Ro _ _ _. exists u1. split; [|destruct Io as (_ & _ & _ & _ & Ro'); congruence].
    assert (Dt : default_tokens ts = ts) by (destruct ts; [contradiction|reflexivity]). rewrite <- Dt in Sp.
    exact (PropCli.C36_spelled_credentials_are_accepted sha512 _ _ _ _ _ _ _ _ _ _ Sy Po Sp (asks_stand _ _ _ _ Af u1)). }
  destruct l as [|t [|? ?]]; try discriminate Et. injection Et as Et.
  exact (encrypt_succeeds lib sha512 Hl e v f dir n b c _ t u args ti to te _ status v' Io eq_refl Pf Et (Fr t (or_introl eq_refl)) Ru Cv Ep H).
Qed.
Print Assumptions C94_encryption_succeeds.

(** Every run with -K that decrypts one file succeeds if nothing stands in the way and its keys can decrypt the file.  That
    is so if they satisfy the expression: C94_shared_files and C94_k_of_n. *)
Theorem C94_decryption_succeeds : forall e lib sha512 args occs x ts D g encrypted dir n stdin_is_tty stdout_is_tty stderr_is_tty status x',
  lib_ok lib -> in_order e x ->
  means 0 args occs [g] -> asks_to_decrypt occs -> plain_options occs ->
  says args ts -> ts <> [] -> holds sha512 (files_in e (w_fs x)) ts D -> lenN D < 2 ^ 64 ->
  file_argument g -> plain e (w_fs x) g encrypted -> is_file (components g) dir (n ++ lit ".rypt") -> name_ok n ->
  free_names e (w_fs x) [dir ++ [Normal n]] -> convertible lib (DoDecrypt D) encrypted ->
  main e lib sha512 (files_in e (w_fs x)) args stdin_is_tty stdout_is_tty stderr_is_tty x status x' -> status = 0.
Proof.
  intros e lib sha512 args occs x ts D g cf dir n ti to te status x' Hl Io Me As (K & On & Op) Sy Nt Ho Ld (Wg & Tg & Ng) Pg Fg (N0 & N1 & N2 & _) (l & Et & _ & Fr) Cv H.
  pose proof (remove_rypt _ dir n Fg (components_ok g) N0 N1 N2) as Eq. pose proof (proj2 (options_read args (mkMatches occs [g])) (conj Me On)) as Po.
  assert (Ngo : forall o, In o [OStream; OSuffix; OForce; OVerbose; OQuiet; ODiscardInputs] -> ~ given o occs) by (intros o Io' G; exact (Op o G Io')).
  destruct (line_decrypt sha512 (files_in e (w_fs x)) args occs g _ D ti to te (w_ui x) None Po Ng Tg (Ngo OStream ltac:(cbn; tauto)) (Ngo OSuffix ltac:(cbn; tauto)) (Ngo OForce ltac:(cbn; tauto)) (Ngo OVerbose ltac:(cbn; tauto)) (Ngo OQuiet ltac:(cbn; tauto)) K (Ngo ODiscardInputs ltac:(cbn; tauto)) (mode_decrypt _ _ As) Eq) as (u & Ep & Ru).
  { intros u1 _ Ro _ _ _. exists u1. split; [|destruct Io as (_ & _ & _ & _ & Ro'); congruence]. destruct (holds_read _ _ _ _ Ho u1) as [Rd Kt].
    assert (Dt : default_tokens ts = ts) by (destruct ts; [contradiction|reflexivity]). rewrite <- Dt in Rd.
    exact (PropCli.C37_flat_lists_are_accepted sha512 _ _ _ _ _ _ _ _ Sy Po Kt Rd Ld). }
  destruct l as [|t [|? ?]]; try discriminate Et. injection Et as Et.
  exact (decrypt_succeeds lib sha512 Hl e x g cf D _ t u args ti to te _ status x' Io Pg Et (Fr t (or_introl eq_refl)) Ru Cv Ep H).
Qed.
Print Assumptions C94_decryption_succeeds.

(** rypt -K --key-threshold 2 --password-file pw notes; and rypt -d -K --password-file pw notes.rypt on a machine where pw
    is another file, with one of the passwords. *)
Definition share_encrypt := [lit "-K"; lit "--key-threshold"; lit "2"; lit "--password-file"; lit "pw"; lit "notes"].
Definition share_encrypt_occs := [mkOcc 0 OKeepInputs None; mkOcc 1 OKeyThreshold (Some (lit "2")); mkOcc 2 OPasswordFile (Some (lit "pw"))].
Definition share_decrypt := [lit "-d"; lit "-K"; lit "--password-file"; lit "pw"; lit "notes.rypt"].
Definition share_decrypt_occs := [mkOcc 0 ODecrypt None; mkOcc 1 OKeepInputs None; mkOcc 2 OPasswordFile (Some (lit "pw"))].

Example C94_case : exists v' encrypted x',
  let v := flow_world "pw" three_passwords "notes" case_data flow_quiet in
  let x := flow_world "pw" [x61] "notes.rypt" encrypted flow_quiet in
  succeeds flow_names toy_lib case_digest share_encrypt share_encrypt_occs [lit "notes"] v v' /\ asks_to_encrypt share_encrypt_occs /\ plain_options share_encrypt_occs /\
  says share_encrypt [KeyThreshold 2; PasswordFile (lit "pw")] /\ spells true (Some (Threshold 2)) (row [PasswordFile (lit "pw")]) [KeyThreshold 2; PasswordFile (lit "pw")] /\
  all_recipients case_digest (files_in flow_names (w_fs v)) [PasswordFile (lit "pw")] [Password [x61]; Password [x61]; Password [x61]] /\
  content flow_names (w_fs v') [Normal (lit "notes.rypt")] = Some encrypted /\
  succeeds flow_names toy_lib case_digest share_decrypt share_decrypt_occs [lit "notes.rypt"] x x' /\ asks_to_decrypt share_decrypt_occs /\ plain_options share_decrypt_occs /\
  says share_decrypt [PasswordFile (lit "pw")] /\ holds case_digest (files_in flow_names (w_fs x)) [PasswordFile (lit "pw")] [Password [x61]] /\
  content flow_names (w_fs x') [Normal (lit "notes")] = Some case_data.
Proof.
  assert (A1 : asks_to_encrypt share_encrypt_occs) by ask.
  assert (A2 : asks_to_decrypt share_decrypt_occs) by (split; [exists (mkOcc 0 ODecrypt None); split; [left; reflexivity|reflexivity]|ask]).
  assert (O1 : plain_options share_encrypt_occs).
  { split; [exists (mkOcc 0 OKeepInputs None); split; [left; reflexivity|reflexivity]|]. split; [not_twice|ask]. }
  assert (O2 : plain_options share_decrypt_occs).
  { split; [exists (mkOcc 1 OKeepInputs None); split; [right; left; reflexivity|reflexivity]|]. split; [not_twice|ask]. }
  assert (D2 : decimal (lit "2") 2) by (apply CliProofs3.parse_usize_iff; reflexivity).
  assert (Sy1 : says share_encrypt [KeyThreshold 2; PasswordFile (lit "pw")]).
  { apply (sy_other OKeepInputs None [lit "-K"]); [apply (sl_short OKeepInputs 75); reflexivity|reflexivity|].
    apply (sy_credential OKeyThreshold (Some (lit "2")) [lit "--key-threshold"; lit "2"]); [apply sl_long_value; reflexivity|constructor; exact D2|].
    apply (sy_credential OPasswordFile (Some (lit "pw")) [lit "--password-file"; lit "pw"]); [apply sl_long_value; reflexivity|constructor|].
    apply sy_free; [intros a E; discriminate E|constructor]. }
  assert (Sy2 : says share_decrypt [PasswordFile (lit "pw")]).
  { apply (sy_other ODecrypt None [lit "-d"]); [apply (sl_short ODecrypt 100); reflexivity|reflexivity|].
    apply (sy_other OKeepInputs None [lit "-K"]); [apply (sl_short OKeepInputs 75); reflexivity|reflexivity|].
    apply (sy_credential OPasswordFile (Some (lit "pw")) [lit "--password-file"; lit "pw"]); [apply sl_long_value; reflexivity|constructor|].
    apply sy_free; [intros a E; discriminate E|constructor]. }
  assert (Sp1 : spells true (Some (Threshold 2)) (row [PasswordFile (lit "pw")]) [KeyThreshold 2; PasswordFile (lit "pw")]).
  { apply sp_threshold. cbn [row]. apply sp_key; [exact I|constructor]. }
  set (v := flow_world "pw" three_passwords "notes" case_data flow_quiet).
  assert (Ov : in_order flow_names v) by pipe_order.
  assert (Pn : plain flow_names (w_fs v) (lit "notes") case_data) by (apply flow_at; [reflexivity|apply flow_second; reflexivity]).
  pose proof (plain_files_in _ _ _ _ (flow_at "pw" (w_fs v) three_passwords eq_refl (flow_first _ _ _ _))) as Fp.
  assert (Ar : all_recipients case_digest (files_in flow_names (w_fs v)) [PasswordFile (lit "pw")] [Password [x61]; Password [x61]; Password [x61]]).
  { apply (ar_cons _ _ (PasswordFile (lit "pw")) [] (map Password [[x61]; [x61]; [x61]]) []); [|constructor].
    apply (rc_passwords _ _ (lit "pw") three_passwords); [exact Fp|exact three_there|discriminate]. }
  destruct (C56_every_run_ends flow_names toy_lib case_digest (files_in flow_names (w_fs v)) share_encrypt false false false v toy_lib_ok (flow_spacious _ _ _ _)) as (s1 & v' & H1).
  assert (Af : asks_for case_digest (files_in flow_names (w_fs v)) (Group (Some (Threshold 2)) (row [PasswordFile (lit "pw")])) (Complex (map (fun p => (1, Password p)) [[x61]; [x61]; [x61]]) 3 2)).
  { exact (af_group _ _ (Some (Threshold 2)) _ _ (row_asks _ _ _ _ Ar) ltac:(discriminate) eq_refl ltac:(vm_compute; split; discriminate)). }
  assert (s1 = 0) as ->.
  { refine (C94_encryption_succeeds flow_names toy_lib case_digest _ share_encrypt_occs v _ _ _ _ (lit "notes") case_data [] (lit "notes") false false false s1 v' toy_lib_ok Ov _ A1 O1 _ Sy1 ltac:(discriminate) Sp1 Af flow_notes Pn eq_refl flow_no_dot flow_no_rypt _ _ H1).
    - apply options_mean. vm_compute. reflexivity.
    - no_option.
    - apply (flow_free "pw" "notes" three_passwords case_data "notes.rypt"); reflexivity.
    - refine (passwords_convertible toy_lib toy_lib_ok toy_cs [[x61]; [x61]; [x61]] 2 case_data eq_refl _ _); [vm_compute; split; discriminate|vm_compute; discriminate]. }
  assert (S1 : succeeds flow_names toy_lib case_digest share_encrypt share_encrypt_occs [lit "notes"] v v').
  { apply flow_succeeds; [apply flow_wf|vm_compute; reflexivity|no_option|no_option|no_option|exact H1]. }
  clear H1. pose proof (flow_there "notes" _ _ Pn) as At1. assert (Nf : lit "notes" <> lit "-") by discriminate.
  destruct (C94_k_of_n toy_lib case_digest flow_names _ _ _ v v' _ _ _ _ 2 (lit "notes") case_data [] (lit "notes") toy_lib_ok S1 A1 Sy1 ltac:(discriminate) Sp1 Ar eq_refl
    ltac:(vm_compute; split; discriminate) eq_refl At1 (or_introl eq_refl) Nf Pn eq_refl flow_no_dot) as (fast & cf & er & ser & cod & chunk & _ & Ec & Hr & He & Hh & Z).
  destruct (Z [Password [x61]]) as [Z1 Z2].
  { constructor; [exact I|constructor]. }
  { intros i c ct d Hi _ [<-|[]] _. destruct i as [|[|[|[|i]]]]; cbn in Hi; try discriminate Hi; injection Hi as <-; reflexivity. }
  assert (Cv : convertible toy_lib (DoDecrypt [Password [x61]]) cf).
  { apply Z1. exists [Password [x61]; Password [x61]]. split; [repeat constructor|]. split; [vm_compute; discriminate|].
    intros r [<-|[<-|[]]]; (exists (Password [x61]); split; [left; reflexivity|reflexivity]). }
  clear Z Z1 He Hr Hh.
  set (x := flow_world "pw" [x61] "notes.rypt" cf flow_quiet).
  assert (Ox : in_order flow_names x) by pipe_order.
  assert (Pc : plain flow_names (w_fs x) (lit "notes.rypt") cf) by (apply flow_at; [reflexivity|apply flow_second; reflexivity]).
  pose proof (plain_files_in _ _ _ _ (flow_at "pw" (w_fs x) [x61] eq_refl (flow_first _ _ _ _))) as Fs.
  assert (Ho : holds case_digest (files_in flow_names (w_fs x)) [PasswordFile (lit "pw")] [Password [x61]]).
  { apply (hd_passwords _ _ (lit "pw") [x61] [[x61]] [] []); [exact Fs|exact one_there|discriminate|constructor]. }
  destruct (C56_every_run_ends flow_names toy_lib case_digest (files_in flow_names (w_fs x)) share_decrypt false false false x toy_lib_ok (flow_spacious _ _ _ _)) as (s2 & x' & H2).
  assert (s2 = 0) as ->.
  { refine (C94_decryption_succeeds flow_names toy_lib case_digest _ share_decrypt_occs x _ _ (lit "notes.rypt") cf [] (lit "notes") false false false s2 x' toy_lib_ok Ox _ A2 O2 Sy2 ltac:(discriminate) Ho eq_refl flow_notes_rypt Pc eq_refl _ _ Cv H2).
    - apply options_mean. vm_compute. reflexivity.
    - repeat split; try discriminate. intros X. cbn in X. repeat (destruct X as [X|X]; [discriminate X|]). exact X.
    - apply (flow_free "pw" "notes.rypt" [x61] cf "notes"); reflexivity. }
  assert (S2 : succeeds flow_names toy_lib case_digest share_decrypt share_decrypt_occs [lit "notes.rypt"] x x').
  { apply flow_succeeds; [apply flow_wf|vm_compute; reflexivity|no_option|no_option|no_option|exact H2]. }
  clear H2 Cv. pose proof (flow_there "notes.rypt" _ _ Pc) as At2. assert (Ng : lit "notes.rypt" <> lit "-") by discriminate.
  destruct (Z2 flow_names _ _ _ x x' _ (lit "notes.rypt") S2 A2 Sy2 ltac:(discriminate) Ho eq_refl At2 (or_introl eq_refl) Ng Pc) as (_ & d' & n' & Fg & Z).
  assert (Eg : d' = [] /\ n' = lit "notes").
  { change (components (lit "notes.rypt")) with ([] ++ [Normal (lit "notes" ++ lit ".rypt")]) in Fg. unfold is_file in Fg. apply app_inj_tail in Fg as [<- Fg]. injection Fg as Fg.
    change (lit "notes" ++ lit ".rypt" = n' ++ lit ".rypt") in Fg. apply app_inv_tail in Fg. auto. }
  destruct Eg as [-> ->]. assert (Z' : content flow_names (w_fs x') [Normal (lit "notes")] = Some case_data) by (apply Z; discriminate). clear Z Z2 Fg.
  exists v', cf, x'. cbv zeta. fold v x.
  exact (conj S1 (conj A1 (conj O1 (conj Sy1 (conj Sp1 (conj Ar (conj Ec (conj S2 (conj A2 (conj O2 (conj Sy2 (conj Ho Z')))))))))))).
Qed.

(** Documented commands exit with 0 if nothing stands in the way (C74). *)
From Coq.Strings Require Import Byte String.
From Coq Require Import List NArith ZArith Bool PeanoNat Lia.
From Verif Require Import Base BaseFacts Shamir Errors Io HeaderIo HeaderIoSpec StreamSpec Text Util CliErrors Getopts Crypto HeaderCrypto CredSpec FileCrypto KeyFiles Ui UiSpec Paths PathSpec PathProofs CliCreds Cli CliSpec OptSpec OptProofs CmdSpec CmdProofs Progress Fs Commands FsSpec
  ToyCrypto FsProofs12 FsCases HeaderCryptoProofs4 FlowSpec FlowProofs FlowProofs2 PropHeader PropFs PropFs2.
Import ListNotations.
Local Open Scope N_scope.

Lemma one_convertible lib cs c b : lib_ok lib -> lib ChaCha20Poly1305Ietf = Some cs -> wf_cred c -> (forall s n t, c <> Complex s n t) ->
  (forall er, random_ok er -> realisable cs (snd (cs_keypair cs (er_seed er))) 32 c) -> convertible lib (DoEncrypt (Complex [(1, c)] 1 1) false) b.
Proof.
  intros Hl El Wc Nc Re. set (opts := mkEncryptOptions [(1, c)] 1 1 false).
  assert (Wg : wf_cred (expression opts)) by (constructor; [constructor; [cbn; lia|constructor]|constructor; [exact Wc|constructor]|reflexivity|reflexivity]).
  assert (R : forall er, random_ok er -> realisable cs (snd (cs_keypair cs (er_seed er))) 32 (expression opts)).
  { intros er Hr. cbn [opts expression realisable eo_sub_creds eo_num_shares eo_threshold map fold_right fst snd]. split; [lia|]. split; [lia|]. split; [lia|]. split; [left; reflexivity|].
    split; [exact (Re er Hr)|exact Logic.I]. }
  destruct case_header as (ser & cod & chunk & E & L).
  destruct (proj2 (encrypt_header_accepts lib opts some_random some_random_ok Wg)) as [[[ser0 cod0] chunk0] E0].
  { exists cs. split; [exact El|apply R, some_random_ok]. }
  refine (C56_encryption_does_not_depend_on_the_file lib [(1, c)] 1 1 false cs some_random ser0 cod0 chunk0 Hl Wg El R some_random_ok E0 _ b).
  destruct (C11_header_hides_recipient_types toy_lib lib case_opts opts some_random some_random ser cod chunk ser0 cod0 chunk0 toy_lib_ok Hl some_random_ok some_random_ok case_wf_cred Wg) as [El0 _].
  - apply shape_group. constructor; [|constructor]. split; [reflexivity|]. apply shape_leaf; [discriminate|exact Nc].
  - reflexivity.
  - exact E.
  - exact E0.
  - unfold MAX_HEADER_LEN in L. lia.
  - unfold lenN in *. rewrite <- El0. exact L.
Qed.

Lemma add_rypt p d n : is_file p d n -> name_ok n -> ~ ends_in_dot n -> ~ (exists a, a <> [] /\ n = a ++ lit ".rypt") -> add_extension p (lit "rypt") false = Ok (d ++ [Normal (n ++ lit ".rypt")]).
Proof.
  intros -> On Nd Nr. destruct (add_extension_refuses d n (lit "rypt") On) as [E|(q & E)].
  - exfalso. unfold add_extension, extension in E. rewrite (proj2 (file_name_iff (d ++ [Normal n]) d n) eq_refl) in E.
    destruct (stem_cases n) as [[S _]|(a & b & Na & Nb & En & S)]; rewrite S in E; cbn [fst snd] in E.
    + discriminate E.
    + unfold bind, ensure in E. cbn [orb] in E. destruct (text_eqb b (lit "rypt")) eqn:Eb; [|discriminate E]. apply text_eqb_eq in Eb as ->. apply Nr. exists a. auto.
  - rewrite E. f_equal. apply (add_extension_name d n (lit "rypt") false q On Nd); [|left; discriminate|exact E]. intros X. cbn in X. repeat (destruct X as [X|X]; [discriminate X|]). exact X.
Qed.
Lemma remove_rypt p d n : is_file p d (n ++ lit ".rypt") -> path_ok p -> n <> [] -> n <> lit "." -> n <> lit ".." -> remove_extension p (lit "rypt") = Ok (d ++ [Normal n]).
Proof.
  intros F Op N0 N1 N2. pose proof (path_ok_name _ _ _ Op F) as (_ & _ & _ & Ns). rewrite F.
  change (n ++ lit ".rypt") with (n ++ 46 :: lit "rypt"). rewrite (remove_extension_run d n (lit "rypt") N0).
  - f_equal. apply push_name. repeat split; try assumption. intros X. apply Ns, in_or_app. auto.
  - intros X. cbn in X. repeat (destruct X as [X|X]; [discriminate X|]). exact X.
Qed.

(** A machine where nothing stands in the way. *)
Definition in_order (entry_of : names) (w : world) : Prop :=
  wf_fs (w_fs w) /\ spacious (w_fs w) /\ faulty entry_of = false /\ stalls entry_of = false /\ u_room (w_ui w) = None.
(** The name of a file that can be given to the program. *)
Definition file_argument (f : text) : Prop := is_word f /\ trim f <> lit "-" /\ f <> lit "-".

Section Live.
Variable lib : crypto_lib.
Variable sha512 : bytes -> bytes.
Hypothesis Hl : lib_ok lib.

Lemma generate_succeeds e w k d n n' tin tout terr files status w' : in_order e w -> is_word k -> k <> lit "-" -> is_file (components k) d n -> public_name n n' ->
  lib ChaCha20Poly1305Ietf <> None -> free_names e (w_fs w) [d ++ [Normal n']; components k] ->
  main e lib sha512 files [lit "-g"; k] tin tout terr w status w' -> status = 0.
Proof.
  intros (W & Sp & Nfa & Nst & Ro) Wk Nk Fk Pn Ln Fr H. destruct (line_generate sha512 files k tin tout terr (w_ui w) Wk Nk) as (u & Ep & Ru).
  destruct (public_ok _ _ _ Fk) as (n2 & Pn2 & Fq). pose proof (public_name_unique _ _ _ Pn Pn2) as <-. unfold is_file in Fq.
  apply (proj2 (C56_exit_status e lib sha512 files _ tin tout terr w u status w' Hl W Sp Nfa Nst (eq_trans Ru Ro) H) _ Ep Ln).
  cbn [flat_map key_files k_public k_private app]. rewrite Fq. exact Fr.
Qed.

Lemma one_distinct (e : names) st : distinct_outputs e [st].
Proof. intros l1 s1 l2 s2 l3 q q' t E. destruct l1 as [|x l1]; [|destruct l1; discriminate E]. injection E as _ E. destruct l2; discriminate E. Qed.

Lemma encrypt_succeeds e w f d n b c q t u args tin tout terr files status w' : in_order e w -> q = d ++ [Normal (n ++ lit ".rypt")] ->
  plain e (w_fs w) f b -> e q = Some t -> f_entries (w_fs w) t = None -> u_room u = None ->
  convertible lib (DoEncrypt c false) b ->
  parse_command_line sha512 files args tin tout terr (w_ui w) = (Ok (CryptStreams [mkStream (IFile (components f)) (Ok (OFile q))] KeepFiles false (DoEncrypt c false)), u) ->
  main e lib sha512 files args tin tout terr w status w' -> status = 0.
Proof.
  intros (W & Sp & Nfa & Nst & Ro) Eq (s & Es & Pb) Et Nt Ru Cv Ep H.
  apply (proj1 (C56_exit_status e lib sha512 files _ tin tout terr w u status w' Hl W Sp Nfa Nst Ru H) _ _ _ Ep); [discriminate| |apply one_distinct].
  intros st [<-|[]]. exists (components f), s, b, q, t. repeat (split; [assumption || reflexivity|]). assumption.
Qed.
Lemma decrypt_succeeds e w f b D q t u args tin tout terr files status w' : in_order e w ->
  plain e (w_fs w) f b -> e q = Some t -> f_entries (w_fs w) t = None -> u_room u = None ->
  convertible lib (DoDecrypt D) b ->
  parse_command_line sha512 files args tin tout terr (w_ui w) = (Ok (CryptStreams [mkStream (IFile (components f)) (Ok (OFile q))] KeepFiles false (DoDecrypt D)), u) ->
  main e lib sha512 files args tin tout terr w status w' -> status = 0.
Proof.
  intros (W & Sp & Nfa & Nst & Ro) (s & Es & Pb) Et Nt Ru Cv Ep H.
  apply (proj1 (C56_exit_status e lib sha512 files _ tin tout terr w u status w' Hl W Sp Nfa Nst Ru H) _ _ _ Ep); [discriminate| |apply one_distinct].
  intros st [<-|[]]. exists (components f), s, b, q, t. repeat (split; [assumption || reflexivity|]). assumption.
Qed.

Lemma encrypted_there e args occs free v v' c (fast : bool) f b dir n :
  encrypts_for lib sha512 e args occs free v v' c fast -> wf_cred c ->
  all_there e (w_fs v) free -> In f free -> f <> lit "-" -> plain e (w_fs v) f b -> is_file (components f) dir n -> ~ ends_in_dot n ->
  exists cf, content e (w_fs v') (dir ++ [Normal (n ++ lit ".rypt")]) = Some cf.
Proof.
  intros (tin & tout & terr & files & streams & policy & u & R & W & No & Ns & Ep & Hc) Wc At If Nf (s & Es & Pb) Fn Nd.
  destruct (crypt_done lib sha512 Hl _ _ _ _ _ _ _ _ _ _ _ _ _ _ _ R W No At Ep Hc If Nf) as [Sp (q & I)].
  assert (Wg : wf_cred (Complex [(1, c)] 1 1)) by (constructor; [constructor; [cbn; lia|constructor]|constructor; [exact Wc|constructor]|reflexivity|reflexivity]).
  destruct (C57_decryption_restores_files e lib streams policy _ _ _ _ (set_ui v u) _ Hl W Sp Wg Hc _ s q b I) as (t & c0 & er & ser & cod & chunk & Et & Pt & _).
  { exists (components f). auto. } { exact Pb. }
  destruct (PropCommandLine.C69_encrypted_names _ _ _ _ _ _ _ _ _ _ _ _ _ _ _ _ _ _ _ R Ep I Fn Nd) as (sx & Sx & Fq). apply suffix_rypt in Sx; [|exact Ns]. subst sx.
  assert (Eq : q = dir ++ [Normal (n ++ lit ".rypt")]) by (apply Fq; [intros X; cbn in X; repeat (destruct X as [X|X]; [discriminate X|]); exact X|left; discriminate]).
  exists c0. rewrite <- Eq. eapply plain_content; eassumption.
Qed.

(** What was encrypted for [c] can be decrypted with [d]. *)
Lemma encrypted_convertible e args occs free v v' c d (fast : bool) f b cf dir n :
  encrypts_for lib sha512 e args occs free v v' c fast -> wf_cred c -> leaves c = [c] -> (forall cs, lib (alg_of fast) = Some cs -> matches cs c d /\ decryption_cred cs d) ->
  all_there e (w_fs v) free -> In f free -> f <> lit "-" -> plain e (w_fs v) f b -> is_file (components f) dir n -> ~ ends_in_dot n ->
  content e (w_fs v') (dir ++ [Normal (n ++ lit ".rypt")]) = Some cf -> convertible lib (DoDecrypt [d]) cf.
Proof.
  intros (tin & tout & terr & files & streams & policy & u & R & W & No & Ns & Ep & Hc) Wc Lc Mc At If Nf (s & Es & Pb) Fn Nd Ec.
  destruct (crypt_done lib sha512 Hl _ _ _ _ _ _ _ _ _ _ _ _ _ _ _ R W No At Ep Hc If Nf) as [Sp (q & I)].
  assert (Wg : wf_cred (Complex [(1, c)] 1 1)) by (constructor; [constructor; [cbn; lia|constructor]|constructor; [exact Wc|constructor]|reflexivity|reflexivity]).
  destruct (C57_decryption_restores_files e lib streams policy _ _ _ _ (set_ui v u) _ Hl W Sp Wg Hc _ s q b I) as (t & c0 & er & ser & cod & chunk & Et & Pt & Hr & He & Hh & Z).
  { exists (components f). auto. } { exact Pb. }
  destruct (PropCommandLine.C69_encrypted_names _ _ _ _ _ _ _ _ _ _ _ _ _ _ _ _ _ _ _ R Ep I Fn Nd) as (sx & Sx & Fq). apply suffix_rypt in Sx; [|exact Ns]. subst sx.
  assert (Eq : q = dir ++ [Normal (n ++ lit ".rypt")]) by (apply Fq; [intros X; cbn in X; repeat (destruct X as [X|X]; [discriminate X|]); exact X|left; discriminate]).
  assert (c0 = cf) as -> by (rewrite <- Eq in Ec; rewrite (plain_content _ _ _ _ _ Et Pt) in Ec; congruence).
  destruct (Mc _ (encrypt_header_algorithm lib _ _ _ _ _ He)) as [Mm Md].
  destruct (Z [d]) as [Z' _].
  - constructor; [exact Md|constructor].
  - intros i l ct dd Hi _ [<-|[]] _. cbn [leaves map concat snd] in Hi. rewrite Lc in Hi. cbn [app] in Hi. destruct i as [|[|i]]; [injection Hi as <-; exact Mm|discriminate Hi..].
  - apply Z'. apply (sat_group _ _ _ _ _ [(1, c)]); [apply sel_take, sel_nil|constructor; [|constructor]|unfold total_shares; cbn; lia].
    apply (sat_leaf _ _ _ d); [left; reflexivity|exact Mm].
Qed.
End Live.

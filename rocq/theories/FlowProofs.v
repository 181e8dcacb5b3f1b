(** Facts about workflows (C74). *)
From Coq.Strings Require Import Byte String.
From Coq Require Import List NArith ZArith Bool PeanoNat Lia.
From Verif Require Import Base BaseFacts Shamir Errors Io HeaderIo HeaderIoSpec StreamSpec Text TextProofs TextProofs2 Util CliErrors Getopts Crypto HeaderCrypto CredSpec FileCrypto KeyFiles Ui UiSpec UiProofs Paths PathSpec PathProofs CliCreds Cli CliSpec CliProofs CliProofs2 CliProofs3 CliProofs4
  SettingsProofs OptSpec OptProofs CmdSpec CmdProofs Progress Fs Commands FsSpec FsProofs5 FlowSpec HeaderCryptoProofs2 HeaderCryptoProofs4 PropNames PropCommandLine PropFs PropFs2 PropKeys PropUi.
Import ListNotations.
Local Open Scope N_scope.

(** ** Files *)

Lemma plain_follow f s b : plain_file f s b -> follow max_links f s = Some s.
Proof. intros (i & E & _). unfold max_links. cbn [follow]. rewrite E. reflexivity. Qed.
Lemma plain_content (entry_of : names) f p s b : entry_of p = Some s -> plain_file f s b -> content entry_of f p = Some b.
Proof.
  intros Es P. unfold content. rewrite Es, (plain_follow _ _ _ P). destruct P as (i & -> & ->). reflexivity.
Qed.

(** ** Names *)

Lemma suffix_rypt occs s : ~ given OSuffix occs -> suffix occs s -> s = lit "rypt".
Proof.
  intros N [[_ E]|[(x & I & E & _)|[(x & I & E & _) _]]]; [exact E| |]; exfalso; apply N; exists x; auto.
Qed.
Lemma public_name_unique n q q' : public_name n q -> public_name n q' -> q = q'.
Proof.
  assert (A : forall b e, b <> [] -> n = b ++ lit "." ++ e -> has_inner_dot n) by (intros b e Nb E; exists b, e; auto).
  intros [(b & e & Nb & En & Ne & ->)|[Nd ->]] [(b' & e' & Nb' & En' & Ne' & ->)|[Nd' ->]].
  - assert (P : rsplit_dot n = (Some b, e)) by (apply rsplit_some; auto). assert (P' : rsplit_dot n = (Some b', e')) by (apply rsplit_some; auto).
    rewrite P in P'. injection P' as -> _. reflexivity.
  - destruct Nd'. eapply A; eassumption.
  - destruct Nd. eapply A; eassumption.
  - reflexivity.
Qed.

(** ** Modes *)

Lemma some_mode occs free mode : get_mode (mkMatches occs free) = mode ->
  (mode = MCrypt Encrypt /\ forall x, In x occs -> mode_of (o_opt x) = None) \/ exists x, In x occs /\ mode_of (o_opt x) = Some mode.
Proof.
  intros E. unfold get_mode in E. fold (mode_list (mkMatches occs free)) in E. pose proof (max_by_pos_spec (mode_list (mkMatches occs free)) None) as K.
  destruct (max_by_pos None (mode_list (mkMatches occs free))) as [[p md]|].
  - subst md. right. destruct K as [[K|K] _]; [discriminate K|]. apply mode_list_in in K as (x & I & _ & Em). exists x. auto.
  - left. split; [symmetry; exact E|]. intros x I. destruct (mode_of (o_opt x)) as [md|] eqn:Em; [|reflexivity]. destruct K as [_ K].
    assert (J : In (o_pos x, md) (mode_list (mkMatches occs free))) by (apply mode_list_in; exists x; auto). rewrite K in J. destruct J.
Qed.
Lemma mode_encrypt occs free : asks_to_encrypt occs -> get_mode (mkMatches occs free) = MCrypt Encrypt.
Proof.
  intros H. destruct (some_mode occs free _ eq_refl) as [[E _]|(x & I & E)]; [exact E|].
  specialize (H (o_opt x) (ex_intro _ x (conj I eq_refl))). destruct (o_opt x); cbn in E; try discriminate E; try (destruct H; cbn; tauto). congruence.
Qed.
Lemma mode_decrypt occs free : asks_to_decrypt occs -> get_mode (mkMatches occs free) = MCrypt Decrypt.
Proof.
  intros [(y & Iy & Ey) H]. destruct (some_mode occs free _ eq_refl) as [[_ E]|(x & I & E)].
  - specialize (E y Iy). rewrite Ey in E. discriminate E.
  - specialize (H (o_opt x) (ex_intro _ x (conj I eq_refl))). destruct (o_opt x); cbn in E; try discriminate E; try (destruct H; cbn; tauto). congruence.
Qed.
Lemma mode_keys occs free : asks_for_keys occs -> get_mode (mkMatches occs free) = MGenerateKeypair.
Proof.
  intros [(y & Iy & Ey) H]. destruct (some_mode occs free _ eq_refl) as [[_ E]|(x & I & E)].
  - specialize (E y Iy). rewrite Ey in E. discriminate E.
  - specialize (H (o_opt x) (ex_intro _ x (conj I eq_refl))). destruct (o_opt x); cbn in E; try discriminate E; try (destruct H; cbn; tauto). congruence.
Qed.

(** ** Credentials *)

Lemma only_occ o v occs free : key_option o -> only_key o v occs -> exists pos, credential_occs (mkMatches occs free) = [mkOcc pos o (Some v)].
Proof.
  intros K (a & pos & b & -> & N). exists pos. unfold credential_occs. cbn [m_occs].
  assert (Z : forall l, (forall x, In x l -> In x (a ++ b)) -> filter (fun o => credential_opt (o_opt o)) l = []).
  { intros l L. apply filter_all_false. intros x I. specialize (N x (L x I)). destruct (credential_opt (o_opt x)) eqn:E; [|reflexivity]. destruct N.
    unfold key_option. destruct (o_opt x); cbn in E; try discriminate E; cbn; tauto. }
  rewrite filter_app. cbn [filter]. rewrite (Z a), (Z b) by (intros x I; apply in_or_app; auto).
  replace (credential_opt (o_opt (mkOcc pos o (Some v)))) with true; [reflexivity|]. cbn [o_opt].
  unfold key_option in K. cbn in K. repeat (destruct K as [<-|K]; [reflexivity|]). destruct K.
Qed.

Section WithFiles.
Variable sha512 : bytes -> bytes.
Variable files : text -> option bytes.

Lemma public_credential args occs free force u c u' v pk : parse_options args = Ok (mkMatches occs free) -> only_key OPublicKey v occs ->
  read_file_lines (files v) (public_key_line sha512 force) = Ok [PublicKey pk] ->
  get_encrypt_credential sha512 files (mkMatches occs free) force u = (Ok c, u') -> c = Complex [(1, PublicKey pk)] 1 1.
Proof.
  intros P K R H. destruct (get_encrypt_inv _ _ _ _ _ _ _ _ P H) as (ts & F & Hp).
  destruct (only_occ OPublicKey v occs free) as (pos & E); [unfold key_option; cbn; tauto|exact K|]. rewrite E in F.
  inversion F as [|? t ? ts' T F']; subst. inversion F'; subst. inversion T; subst. clear F F' T E.
  cbn [default_tokens] in Hp. unfold parse_complex_credential in Hp. apply CliProofs.bind_ok in Hp as ([c' rest] & u1 & Hp & Hr). injection Hr as <- <-.
  cbn -[read_file_lines] in Hp. unfold bind_act, ensure_act, lift, ret in Hp. cbn -[read_file_lines] in Hp. unfold lift in Hp. rewrite R in Hp. cbn in Hp. congruence.
Qed.
Lemma private_credential args occs free force u cs u' v sk : parse_options args = Ok (mkMatches occs free) -> only_key OPrivateKey v occs ->
  read_file_lines (files v) (private_key_line sha512 force) = Ok [PrivateKey sk] ->
  get_decrypt_credentials sha512 files (mkMatches occs free) force u = (Ok cs, u') -> cs = [PrivateKey sk].
Proof.
  intros P K R H. destruct (get_decrypt_inv _ _ _ _ _ _ _ _ P H) as (ts & F & Hp).
  destruct (only_occ OPrivateKey v occs free) as (pos & E); [unfold key_option; cbn; tauto|exact K|]. rewrite E in F.
  inversion F as [|? t ? ts' T F']; subst. inversion F'; subst. inversion T; subst. clear F F' T E.
  cbn [default_tokens] in Hp. destruct (decrypt_tokens_ok _ _ _ _ _ _ _ Hp) as [Rd _].
  inversion Rd as [|t ts v0 u1 v' cs1 cs2 Ht R2]; subst. inversion R2; subst. cbn [read_token] in Ht. apply CliProofs.bind_ok in Ht as ([] & u2 & Ht1 & Ht).
  apply lift_ok in Ht as [Ht ->]. rewrite R in Ht. injection Ht as <-. reflexivity.
Qed.

End WithFiles.

(** ** Dialogues *)

Lemma carries_two s a : forall s1 b s2, carries s a s1 -> carries s b s2 -> (exists r, b = a ++ r /\ carries s1 r s2) \/ exists r, a = b ++ r /\ carries s2 r s1.
Proof.
  revert s. induction a as [|x a IH]; intros s s1 b s2 A B.
  - inversion A; subst. left. exists b. auto.
  - destruct b as [|y b].
    + inversion B; subst. right. exists (x :: a). auto.
    + pose proof A as A'. pose proof B as B'. apply next_byte_carries in A' as (t & N1 & C1). apply next_byte_carries in B' as (t' & N2 & C2).
      rewrite N1 in N2. injection N2 as <- <-. destruct (IH _ _ _ _ C1 C2) as [(r & -> & C)|(r & -> & C)]; [left|right]; exists r; auto.
Qed.
Lemma first_newline (a b r : list byte) : a ++ x0a :: r = b ++ [x0a] -> ~ In x0a a -> ~ In x0a b -> r = [] /\ a = b.
Proof.
  revert b. induction a as [|x a IH]; intros [|y b] E Na Nb.
  - injection E as E. auto.
  - injection E as <- E. destruct Nb. left. reflexivity.
  - injection E as -> _. destruct Na. left. reflexivity.
  - injection E as -> E. destruct (IH b E) as [-> ->]; [intros I; apply Na; right; exact I|intros I; apply Nb; right; exact I|]. auto.
Qed.
Lemma without_cr_fun t r r' : without_cr t r -> without_cr t r' -> r = r'.
Proof.
  intros [A|[A N]] [B|[B N']].
  - rewrite A in B. apply app_inj_tail in B as [B _]. exact B.
  - destruct (N' r A).
  - destruct (N r' B).
  - congruence.
Qed.
Lemma types_fun s r s1 r' s2 : types s r s1 -> types s r' s2 -> r = r' /\ s1 = s2.
Proof.
  intros (t & S1 & N1 & C1 & W1) (t' & S2 & N2 & C2 & W2).
  assert (U : forall t, Forall scalar t -> ~ In 10 t -> ~ In x0a (utf8 t)) by (intros x Sx Nx I; apply Nx, utf8_lf; assumption).
  assert (E : utf8 t = utf8 t' /\ s1 = s2).
  { destruct (carries_two _ _ _ _ _ C1 C2) as [(r0 & E & C)|(r0 & E & C)]; rewrite <- app_assoc in E; cbn [app] in E; symmetry in E;
      (destruct (first_newline _ _ _ E) as [-> Et]; [apply U; assumption..|]); inversion C; subst; auto. }
  destruct E as [E ->]. apply utf8_inj in E; [|assumption..]. subst t'. split; [|reflexivity]. eapply without_cr_fun; eassumption.
Qed.
Lemma dialogue_fun enc rs p : accepts enc rs p -> forall s s1 rs' p' s2, replies s rs s1 -> replies s rs' s2 -> accepts enc rs' p' -> p = p' /\ s1 = s2.
Proof.
  intros A. induction A as [p Np|p Np|enc rs p A IH|q q' rs p Nq Nq' A IH]; intros s s1 rs' p' s2 R R' A'.
  - inversion R as [|? ? t1 ? ? T1 R1]; subst. inversion R1; subst.
    inversion A' as [p1 Np'| |enc rs1 p1 A1|]; subst.
    + inversion R' as [|? ? t2 ? ? T2 R2]; subst. inversion R2; subst. exact (types_fun _ _ _ _ _ T1 T2).
    + inversion R' as [|? ? t2 ? ? T2 R2]; subst. destruct (types_fun _ _ _ _ _ T1 T2) as [-> _]. congruence.
  - inversion R as [|? ? t1 ? ? T1 R1]; subst. inversion R1 as [|? ? t1' ? ? T1' R1']; subst. inversion R1'; subst.
    inversion A' as [|p1 Np'|enc rs1 p1 A1|q q' rs1 p1 Nq Nq' A1]; subst; inversion R' as [|? ? t2 ? ? T2 R2]; subst; destruct (types_fun _ _ _ _ _ T1 T2) as [E1 E2].
    + subst p' t2. inversion R2 as [|? ? t2' ? ? T2' R2']; subst. inversion R2'; subst. split; [reflexivity|]. exact (proj2 (types_fun _ _ _ _ _ T1' T2')).
    + congruence.
    + subst p t2. inversion R2 as [|? ? t2' ? ? T2' R2']; subst. destruct (types_fun _ _ _ _ _ T1' T2') as [E _]. congruence.
  - inversion R as [|? ? t1 ? ? T1 R1]; subst.
    inversion A' as [p1 Np'|p1 Np'|enc' rs1 p1 A1|q q' rs1 p1 Nq Nq' A1]; subst; inversion R' as [|? ? t2 ? ? T2 R2]; subst; destruct (types_fun _ _ _ _ _ T1 T2) as [E1 E2]; try congruence.
    subst t2. eapply IH; eassumption.
  - inversion R as [|? ? t1 ? ? T1 R1]; subst. inversion R1 as [|? ? t1' ? ? T1' R1']; subst.
    inversion A' as [|p1 Np'|enc' rs1 p1 A1|x x' rs1 p1 Nx Nx' A1]; subst; inversion R' as [|? ? t2 ? ? T2 R2]; subst; destruct (types_fun _ _ _ _ _ T1 T2) as [E1 E2]; try congruence.
    + subst p' t2. inversion R2 as [|? ? t2' ? ? T2' R2']; subst. destruct (types_fun _ _ _ _ _ T1' T2') as [E _]. congruence.
    + subst x t2. inversion R2 as [|? ? t2' ? ? T2' R2']; subst. destruct (types_fun _ _ _ _ _ T1' T2') as [E E2]. subst t2'. eapply IH; eassumption.
Qed.

(** ** Runs *)

Section Runs.
Variable lib : crypto_lib.
Variable sha512 : bytes -> bytes.
Hypothesis Hl : lib_ok lib.

Lemma main_command (entry_of : names) files args tin tout terr w w' : main entry_of lib sha512 files args tin tout terr w 0 w' ->
  exists c u x, parse_command_line sha512 files args tin tout terr (w_ui w) = (Ok c, u) /\ run_command entry_of lib sha512 c (set_ui w u) (Ok x) w'.
Proof.
  intros (r & w1 & H & K). destruct r as [x|e|]; [|destruct e; destruct K; discriminate|destruct K; discriminate]. destruct K as [_ ->].
  destruct H as [(c & w2 & [E ->] & H)|[(e & _ & E)|[_ E]]]; [|discriminate E..].
  destruct (parse_command_line sha512 files args tin tout terr (w_ui w)) as [r u] eqn:Ep. cbn [fst snd] in *. subst r. exists c, u, x. auto.
Qed.

Lemma not_to_stdout occs (free : list text) f : ~ given OStream occs -> In f free -> f <> lit "-" -> ~ to_stdout occs free.
Proof. intros No If Nf [X|[->| ->]]; [contradiction|destruct If|]. destruct If as [<-|[]]. contradiction. Qed.

(** What a successful run on files has done. *)
Lemma crypt_done (entry_of : names) args occs free w w' tin tout terr f files streams policy d u :
  means 0 args occs free -> wf_fs (w_fs w) -> ~ given OStream occs -> all_there entry_of (w_fs w) free ->
  parse_command_line sha512 files args tin tout terr (w_ui w) = (Ok (CryptStreams streams policy false d), u) ->
  crypt_streams entry_of lib streams policy false d (set_ui w u) (Ok tt) w' -> In f free -> f <> lit "-" ->
  separate entry_of streams /\ exists q, In (mkStream (IFile (components f)) (Ok (OFile q))) streams.
Proof.
  intros R W No At Ep Hc If Nf.
  destruct (C69_options_have_their_effect _ _ _ _ _ _ _ _ _ _ _ _ _ _ R Ep) as (_ & _ & So & _).
  destruct So as [[X _]|(_ & _ & So)]; [destruct (not_to_stdout _ _ _ No If Nf X)|].
  pose proof (reported_success entry_of lib Hl _ _ _ _ _ Hc W) as A. split.
  - intros st st' p q s I I' Ei Eo Es Eq. destruct (A st' I') as [X|(q' & t & b & g & E & Et & Nt & _)]; [congruence|]. assert (q' = q) by congruence. subst q'.
    assert (t = s) by congruence. subst t. cbn [w_fs set_ui] in Nt.
    assert (K : exists a, In a free /\ s_input st = IFile (components a)).
    { clear - So I. induction So as [|a x l k [Hx _] So IH]; [destruct I|]. destruct I as [->|I]; [exists a; split; [left; reflexivity|exact Hx]|].
      destruct (IH I) as (a' & Ia & E). exists a'. split; [right; exact Ia|exact E]. }
    destruct K as (a & Ia & Ea). destruct (At a Ia) as (s' & Es' & N). rewrite Ea in Ei. injection Ei as <-. congruence.
  - assert (K : exists st, In st streams /\ s_input st = IFile (components f) /\ forall q, s_output st = Ok q -> exists p, q = OFile p).
    { clear - So If. induction So as [|a x l k Hx So IH]; [destruct If|]. destruct If as [->|If]; [exists x; split; [left; reflexivity|exact Hx]|].
      destruct (IH If) as (st & Ia & E). exists st. split; [right; exact Ia|exact E]. }
    destruct K as (st & I & Ei & Ho). destruct (A st I) as [X|(q & t & b & g & E & _)].
    + destruct (Ho _ X) as [p Y]. discriminate Y.
    + exists q. destruct st as [i o]. cbn in Ei, E. subst. exact I.
Qed.

Lemma dash_adjust v streams d force tin tout terr u u' : check_and_adjust_ui_verbosity v streams d force tin tout terr u = (Ok tt, u') -> u_input u' = u_input u.
Proof.
  unfold check_and_adjust_ui_verbosity. intros H. repeat match type of H with (if ?b then _ else _) = _ => destruct b end; try discriminate H; injection H as <-; reflexivity.
Qed.

Lemma encrypt_header_algorithm opts er ser cod chunk : encrypt_header lib opts er = Ok (ser, cod, chunk) -> lib (alg_of (eo_fast opts)) = Some (co_cs cod).
Proof.
  intros H. destruct (encrypt_header_inv _ _ _ _ _ _ H) as (cs & t & l & st & Hcs & _ & _ & _ & -> & _). cbn [co_cs].
  rewrite from_proto_opts in Hcs. destruct (lib (alg_of (eo_fast opts))); [congruence|discriminate Hcs].
Qed.

(** Encryption for the recipient [c] and decryption with the credential [d]. *)
Definition encrypts_for (entry_of : names) args occs free w w' (c : cred) (fast : bool) : Prop :=
  exists tin tout terr files streams policy u, means 0 args occs free /\ wf_fs (w_fs w) /\ ~ given OStream occs /\ ~ given OSuffix occs /\
    parse_command_line sha512 files args tin tout terr (w_ui w) = (Ok (CryptStreams streams policy false (DoEncrypt (Complex [(1, c)] 1 1) fast)), u) /\
    crypt_streams entry_of lib streams policy false (DoEncrypt (Complex [(1, c)] 1 1) fast) (set_ui w u) (Ok tt) w'.
Definition decrypts_with (entry_of : names) args occs free w w' (d : cred) : Prop :=
  exists tin tout terr files streams policy u, means 0 args occs free /\ wf_fs (w_fs w) /\ ~ given OStream occs /\ ~ given OSuffix occs /\
    parse_command_line sha512 files args tin tout terr (w_ui w) = (Ok (CryptStreams streams policy false (DoDecrypt [d])), u) /\
    crypt_streams entry_of lib streams policy false (DoDecrypt [d]) (set_ui w u) (Ok tt) w'.

Lemma there_and_back e1 args1 occs1 free1 v v' e2 args2 occs2 free2 x x' c d (fast : bool) f g b cf dir n :
  encrypts_for e1 args1 occs1 free1 v v' c fast -> decrypts_with e2 args2 occs2 free2 x x' d ->
  wf_cred c -> leaves c = [c] -> (forall cs, lib (alg_of fast) = Some cs -> matches cs c d /\ decryption_cred cs d) ->
  all_there e1 (w_fs v) free1 -> In f free1 -> f <> lit "-" -> plain e1 (w_fs v) f b -> is_file (components f) dir n -> ~ ends_in_dot n ->
  all_there e2 (w_fs x) free2 -> In g free2 -> g <> lit "-" -> plain e2 (w_fs x) g cf ->
  content e1 (w_fs v') (dir ++ [Normal (n ++ lit ".rypt")]) = Some cf ->
  exists dir' n', is_file (components g) dir' (n' ++ lit ".rypt") /\ (n' <> lit "." -> n' <> lit ".." -> content e2 (w_fs x') (dir' ++ [Normal n']) = Some b).
Proof.
  intros (tin & tout & terr & files & streams & policy & u & R & W & No & Ns & Ep & Hc) (tin' & tout' & terr' & files' & streams' & policy' & u' & R' & W' & No' & Ns' & Ep' & Hc') Wc Lc Mc
    At If Nf (s & Es & Pb) Fn Nd At' Ig Ng (s' & Es' & Pc) Ec.
  destruct (crypt_done _ _ _ _ _ _ _ _ _ _ _ _ _ _ _ R W No At Ep Hc If Nf) as [Sp (q & I)].
  destruct (crypt_done _ _ _ _ _ _ _ _ _ _ _ _ _ _ _ R' W' No' At' Ep' Hc' Ig Ng) as [Sp' (q' & I')].
  assert (Wg : wf_cred (Complex [(1, c)] 1 1)) by (constructor; [constructor; [cbn; lia|constructor]|constructor; [exact Wc|constructor]|reflexivity|reflexivity]).
  destruct (C57_decryption_restores_files e1 lib streams policy _ _ _ _ (set_ui v u) _ Hl W Sp Wg Hc _ s q b I) as (t & c0 & er & ser & cod & chunk & Et & Pt & Hr & He & Hh & Z).
  { exists (components f). auto. } { exact Pb. }
  destruct (C69_encrypted_names _ _ _ _ _ _ _ _ _ _ _ _ _ _ _ _ _ _ _ R Ep I Fn Nd) as (sx & Sx & Fq). apply suffix_rypt in Sx; [|exact Ns]. subst sx.
  assert (Eq : q = dir ++ [Normal (n ++ lit ".rypt")]) by (apply Fq; [intros X; cbn in X; repeat (destruct X as [X|X]; [discriminate X|]); exact X|left; discriminate]).
  assert (c0 = cf) as -> by (rewrite <- Eq in Ec; rewrite (plain_content _ _ _ _ _ Et Pt) in Ec; congruence).
  destruct (C69_decrypted_names _ _ _ _ _ _ _ _ _ _ _ _ _ _ _ _ R' Ep' I') as (sx & dir' & n' & Sx & Fg & _ & _ & Fq'). apply suffix_rypt in Sx; [|exact Ns']. subst sx.
  exists dir', n'. split; [exact Fg|]. intros N1 N2. specialize (Fq' N1 N2). unfold is_file in Fq'.
  assert (Ecs : lib (alg_of fast) = Some (co_cs cod)) by exact (encrypt_header_algorithm _ _ _ _ _ He).
  destruct (Mc _ Ecs) as [Mm Md].
  destruct (Z [d]) as [_ Z'].
  - constructor; [exact Md|constructor].
  - intros i l ct dd Hi _ [<-|[]] _. cbn [leaves map concat snd] in Hi. rewrite Lc in Hi. cbn [app] in Hi. destruct i as [|[|i]]; [injection Hi as <-; exact Mm|discriminate Hi..].
  - destruct (Z' e2 streams' policy' (set_ui x u') x' W' Sp' Hc' _ s' q' I') as (_ & t' & Et' & Pt').
    { exists (components g). auto. } { exact Pc. }
    rewrite <- Fq'. eapply plain_content; eassumption.
Qed.

Lemma args_not_empty pos args occs free (f : text) : means pos args occs free -> In f free -> args <> [].
Proof. intros R If ->. inversion R as [|pos' rest|pos' args o f0 rest occs0 free0 It M]; subst; [destruct If|]. inversion It; subst; discriminate. Qed.

Lemma succeeds_encrypt (entry_of : names) args occs free w w' f : succeeds entry_of lib sha512 args occs free w w' -> asks_to_encrypt occs -> In f free ->
  exists tin tout terr streams policy c fast u u2,
    parse_command_line sha512 (files_in entry_of (w_fs w)) args tin tout terr (w_ui w) = (Ok (CryptStreams streams policy false (DoEncrypt c fast)), u) /\
    crypt_streams entry_of lib streams policy false (DoEncrypt c fast) (set_ui w u) (Ok tt) w' /\
    parse_options args = Ok (mkMatches occs free) /\
    get_encrypt_credential sha512 (files_in entry_of (w_fs w)) (mkMatches occs free) false u2 = (Ok c, u) /\ u_input u2 = u_input (w_ui w) /\
    (fast = true <-> given OFast occs).
Proof.
  intros (W & R & Nf & No & Ns & tin & tout & terr & H) As If. destruct (main_command _ _ _ _ _ _ _ _ H) as (c & u & x & Ep & Hc).
  destruct (command_line_inv _ _ _ _ _ _ _ _ _ Ep) as (m & P & Pf & C). pose proof (means_is _ _ _ _ R P) as ->.
  rewrite (mode_encrypt _ _ As) in Pf. pose proof (args_not_empty _ _ _ _ _ R If) as Na. destruct args as [|a args]; [contradiction|]. cbn [andb] in Pf.
  destruct c as [streams policy force dir|ks force| |]; try contradiction Pf. destruct dir as [c fast|cs]; [|contradiction Pf].
  destruct (C _ _ _ _ eq_refl) as (d & u1 & u2 & Ed & Ef & Hs & Hk & D & E1 & _).
  pose proof (proj2 Ed (ex_intro _ c (ex_intro _ fast eq_refl))) as ->. destruct D as (c' & fast' & E & D). injection E as <- <-.
  destruct (C69_options_have_their_effect _ _ _ _ _ _ _ _ _ _ _ _ _ _ R Ep) as (Fo & _ & _ & Fa).
  assert (force = false) as -> by (destruct force; [destruct Nf; apply Fo; reflexivity|reflexivity]).
  exists tin, tout, terr, streams, policy, c, fast, u, u2. split; [exact Ep|]. split; [destruct x; exact Hc|]. split; [exact P|]. split; [exact D|].
  split; [rewrite (dash_adjust _ _ _ _ _ _ _ _ _ Hk), E1; reflexivity|]. exact (Fa c fast eq_refl).
Qed.
Lemma succeeds_decrypt (entry_of : names) args occs free w w' f : succeeds entry_of lib sha512 args occs free w w' -> asks_to_decrypt occs -> In f free ->
  exists tin tout terr streams policy cs u u2,
    parse_command_line sha512 (files_in entry_of (w_fs w)) args tin tout terr (w_ui w) = (Ok (CryptStreams streams policy false (DoDecrypt cs)), u) /\
    crypt_streams entry_of lib streams policy false (DoDecrypt cs) (set_ui w u) (Ok tt) w' /\
    parse_options args = Ok (mkMatches occs free) /\
    get_decrypt_credentials sha512 (files_in entry_of (w_fs w)) (mkMatches occs free) false u2 = (Ok cs, u) /\ u_input u2 = u_input (w_ui w).
Proof.
  intros (W & R & Nf & No & Ns & tin & tout & terr & H) As If. destruct (main_command _ _ _ _ _ _ _ _ H) as (c & u & x & Ep & Hc).
  destruct (command_line_inv _ _ _ _ _ _ _ _ _ Ep) as (m & P & Pf & C). pose proof (means_is _ _ _ _ R P) as ->.
  rewrite (mode_decrypt _ _ As) in Pf. pose proof (args_not_empty _ _ _ _ _ R If) as Na. destruct args as [|a args]; [contradiction|]. cbn [andb] in Pf.
  destruct c as [streams policy force dir|ks force| |]; try contradiction Pf. destruct dir as [c fast|cs]; [contradiction Pf|].
  destruct (C _ _ _ _ eq_refl) as (d & u1 & u2 & Ed & Ef & Hs & Hk & D & E1 & _).
  assert (d = Decrypt) as -> by (destruct d; [destruct (proj1 Ed eq_refl) as (? & ? & X); discriminate X|reflexivity]). destruct D as (cs' & E & D). injection E as <-.
  destruct (C69_options_have_their_effect _ _ _ _ _ _ _ _ _ _ _ _ _ _ R Ep) as (Fo & _ & _ & Fa).
  assert (force = false) as -> by (destruct force; [destruct Nf; apply Fo; reflexivity|reflexivity]).
  exists tin, tout, terr, streams, policy, cs, u, u2. split; [exact Ep|]. split; [destruct x; exact Hc|]. split; [exact P|]. split; [exact D|].
  rewrite (dash_adjust _ _ _ _ _ _ _ _ _ Hk), E1. reflexivity.
Qed.

(** The files of a new key pair. *)
Lemma succeeds_keys (entry_of : names) args occs free w w' k d n n' : succeeds entry_of lib sha512 args occs free w w' -> asks_for_keys occs -> In k free ->
  k <> lit "-" -> is_file (components k) d n -> public_name n n' -> (forall b, sha512 b <> []) ->
  exists cs seed public private, lib ChaCha20Poly1305Ietf = Some cs /\
    content entry_of (w_fs w') (d ++ [Normal n']) = Some public /\ content entry_of (w_fs w') (components k) = Some private /\
    forall force, read_file_lines (Some public) (public_key_line sha512 force) = Ok [PublicKey (fst (cs_keypair cs seed))] /\
                  read_file_lines (Some private) (private_key_line sha512 force) = Ok [PrivateKey (snd (cs_keypair cs seed))].
Proof.
  intros (W & R & Nf & No & Ns & tin & tout & terr & H) As If Nk Fk Pn Hs. destruct (main_command _ _ _ _ _ _ _ _ H) as (c & u & x & Ep & Hc).
  destruct (command_line_inv _ _ _ _ _ _ _ _ _ Ep) as (m & P & Pf & _). pose proof (means_is _ _ _ _ R P) as ->.
  rewrite (mode_keys _ _ As) in Pf. pose proof (args_not_empty _ _ _ _ _ R If) as Na. destruct args as [|a args]; [contradiction|]. cbn [andb] in Pf.
  destruct c as [streams policy force dir|ks force| |]; try contradiction Pf. { destruct dir; contradiction Pf. }
  destruct (C69_key_pairs _ _ _ _ _ _ _ _ _ _ _ _ R Ep) as (Fo & _ & F2 & _).
  assert (force = false) as -> by (destruct force; [destruct Nf; apply Fo; reflexivity|reflexivity]). destruct x.
  assert (K : exists ko, In ko ks /\ key_pair k ko).
  { clear - F2 If. induction F2 as [|a ko l k' Hx F2 IH]; [destruct If|]. destruct If as [->|If]; [exists ko; split; [left; reflexivity|exact Hx]|].
    destruct (IH If) as (st & Ia & E). exists st. split; [right; exact Ia|exact E]. }
  destruct K as (ko & Ik & [[X _]|(_ & q & -> & Fq)]); [contradiction|]. destruct (Fq _ _ Fk) as (n2 & Pn2 & Fq2). pose proof (public_name_unique _ _ _ Pn Pn2) as <-.
  destruct (C55_generated_pairs_are_complete _ _ _ _ _ _ Hc _ Ik) as (cs & seed & pub & priv & El & Et & A & B & _). cbn [k_public k_private] in A, B.
  destruct (A q eq_refl) as (t1 & E1 & _ & P1). destruct (B _ eq_refl) as (t2 & E2 & _ & P2).
  exists cs, seed, (utf8 pub), (utf8 priv). split; [exact El|]. split; [rewrite <- Fq2; eapply plain_content; eassumption|]. split; [eapply plain_content; eassumption|].
  intros force. pose proof (Hl _ _ El) as Ok. destruct (C41_generated_key_files_read_back sha512 force [cs_keypair cs seed] Hs) as (texts & Em & Z1 & Z2 & _).
  - discriminate.
  - intros pk sk [E|[]]. split; [|split].
    + change pk with (fst (pk, sk)). rewrite <- E. apply (keypair_pk_len _ Ok).
    + change sk with (snd (pk, sk)). rewrite <- E. apply (keypair_sk_len _ Ok).
    + replace sk with (snd (cs_keypair cs seed)) by (rewrite E; reflexivity). rewrite (keypair_layout _ Ok), E. reflexivity.
  - cbn [map_out bind] in Em. rewrite Et in Em. cbn [bind] in Em. injection Em as <-. cbn [map fst snd concat] in Z1, Z2. rewrite app_nil_r in Z1, Z2. auto.
Qed.
End Runs.

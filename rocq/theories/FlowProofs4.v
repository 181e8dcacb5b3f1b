(** Runs with typed passwords (C74). *)
From Coq.Strings Require Import Byte String.
From Coq Require Import List NArith ZArith Bool PeanoNat Lia.
From Verif Require Import Base BaseFacts Shamir Errors Io HeaderIo HeaderIoSpec StreamSpec Text Util CliErrors Getopts Crypto HeaderCrypto CredSpec FileCrypto KeyFiles Ui UiSpec Paths PathSpec PathProofs CliCreds Cli CliSpec CliProofs CliProofs2 CliProofs3 CliProofs4 OptSpec OptProofs CmdSpec CmdProofs Progress Fs Commands FsSpec
  HeaderCryptoProofs4 FlowSpec FlowProofs FlowProofs2 FlowProofs3 PropUi.
Import ListNotations.
Local Open Scope N_scope.

Lemma no_occ occs free : no_key occs -> credential_occs (mkMatches occs free) = [].
Proof.
  intros N. unfold credential_occs. cbn [m_occs]. apply filter_all_false. intros x I. destruct (credential_opt (o_opt x)) eqn:E; [|reflexivity].
  destruct (N (o_opt x)); [|exists x; auto]. unfold key_option. destruct (o_opt x); cbn in E; try discriminate E; cbn; tauto.
Qed.

Section WithFiles.
Variable sha512 : bytes -> bytes.
Variable files : text -> option bytes.
Lemma typed_recipient args occs free force u c u' p : parse_options args = Ok (mkMatches occs free) -> no_key occs -> types_password u true p ->
  get_encrypt_credential sha512 files (mkMatches occs free) force u = (Ok c, u') -> c = Complex [(1, Password (utf8 p))] 1 1.
Proof.
  intros P K (s & rs & s' & Iu & Rs & Ac) H. destruct (get_encrypt_inv _ _ _ _ _ _ _ _ P H) as (ts & F & Hp). rewrite (no_occ occs free K) in F. inversion F; subst. clear F.
  cbn [default_tokens] in Hp. unfold parse_complex_credential in Hp. apply CliProofs.bind_ok in Hp as ([c' rest] & u1 & Hp & Hr). injection Hr as <- <-.
  cbn -[read_password_interactively] in Hp. unfold bind_act, ensure_act, lift, ret in Hp. cbn -[read_password_interactively] in Hp.
  destruct (read_password_interactively Encrypt None u) as [[x|e|] u2] eqn:Er; try discriminate Hp. cbn in Hp.
  destruct (C38_password_confirmed _ _ _ _ _ Er) as (s2 & rs2 & p2 & s2' & Iu2 & Rs2 & Ac2 & Ex & _). rewrite Iu in Iu2. injection Iu2 as <-.
  destruct (dialogue_fun _ _ _ Ac _ _ _ _ _ Rs Rs2 Ac2) as [<- _]. congruence.
Qed.
Lemma typed_credential args occs free force u cs u' p : parse_options args = Ok (mkMatches occs free) -> no_key occs -> types_password u false p ->
  get_decrypt_credentials sha512 files (mkMatches occs free) force u = (Ok cs, u') -> cs = [Password (utf8 p)].
Proof.
  intros P K (s & rs & s' & Iu & Rs & Ac) H. destruct (get_decrypt_inv _ _ _ _ _ _ _ _ P H) as (ts & F & Hp). rewrite (no_occ occs free K) in F. inversion F; subst. clear F.
  cbn [default_tokens] in Hp. destruct (decrypt_tokens_ok _ _ _ _ _ _ _ Hp) as [Rd _].
  inversion Rd as [|t ts v0 u1 v' cs1 cs2 Ht R2]; subst. inversion R2; subst. cbn [read_token] in Ht. apply CliProofs.bind_ok in Ht as (x & u2 & Er & Ht). injection Ht as <- <-.
  destruct (C38_password_confirmed _ _ _ _ _ Er) as (s2 & rs2 & p2 & s2' & Iu2 & Rs2 & Ac2 & Ex & _). rewrite Iu in Iu2. injection Iu2 as <-.
  destruct (dialogue_fun _ _ _ Ac _ _ _ _ _ Rs Rs2 Ac2) as [<- _]. cbn [app]. congruence.
Qed.
End WithFiles.

Section Flows.
Variable lib : crypto_lib.
Variable sha512 : bytes -> bytes.
Hypothesis Hl : lib_ok lib.

Lemma encrypts_public (e : names) args occs free v v' pub pk f : succeeds e lib sha512 args occs free v v' -> asks_to_encrypt occs -> only_key OPublicKey pub occs ->
  read_file_lines (files_in e (w_fs v) pub) (public_key_line sha512 false) = Ok [PublicKey pk] -> In f free ->
  exists fast, encrypts_for lib sha512 e args occs free v v' (PublicKey pk) fast /\ (fast = true <-> given OFast occs).
Proof.
  intros Hs As K R If. destruct (succeeds_encrypt lib sha512 e _ _ _ _ _ _ Hs As If) as (tin & tout & terr & streams & policy & c & fast & u & u2 & Ep & Hc & P & G & _ & Fa).
  pose proof (public_credential _ _ _ _ _ _ _ _ _ _ _ P K R G) as ->. destruct Hs as (W & M & _ & No & Ns & _).
  exists fast. split; [|exact Fa]. exists tin, tout, terr, (files_in e (w_fs v)), streams, policy, u. repeat (split; [assumption|]). exact Hc.
Qed.
Lemma decrypts_private (e : names) args occs free x x' priv sk f : succeeds e lib sha512 args occs free x x' -> asks_to_decrypt occs -> only_key OPrivateKey priv occs ->
  read_file_lines (files_in e (w_fs x) priv) (private_key_line sha512 false) = Ok [PrivateKey sk] -> In f free ->
  decrypts_with lib sha512 e args occs free x x' (PrivateKey sk).
Proof.
  intros Hs As K R If. destruct (succeeds_decrypt lib sha512 e _ _ _ _ _ _ Hs As If) as (tin & tout & terr & streams & policy & c & u & u2 & Ep & Hc & P & G & _).
  pose proof (private_credential _ _ _ _ _ _ _ _ _ _ _ P K R G) as ->. destruct Hs as (W & M & _ & No & Ns & _).
  exists tin, tout, terr, (files_in e (w_fs x)), streams, policy, u. repeat (split; [assumption|]). exact Hc.
Qed.
Lemma encrypts_typed (e : names) args occs free v v' p f : succeeds e lib sha512 args occs free v v' -> asks_to_encrypt occs -> no_key occs ->
  types_password (w_ui v) true p -> In f free -> exists fast, encrypts_for lib sha512 e args occs free v v' (Password (utf8 p)) fast.
Proof.
  intros Hs As K T If. destruct (succeeds_encrypt lib sha512 e _ _ _ _ _ _ Hs As If) as (tin & tout & terr & streams & policy & c & fast & u & u2 & Ep & Hc & P & G & Iu & Fa).
  assert (T2 : types_password u2 true p) by (destruct T as (s & rs & s' & E & T); exists s, rs, s'; split; [congruence|exact T]).
  pose proof (typed_recipient _ _ _ _ _ _ _ _ _ _ P K T2 G) as ->. destruct Hs as (W & M & _ & No & Ns & _).
  exists fast. exists tin, tout, terr, (files_in e (w_fs v)), streams, policy, u. repeat (split; [assumption|]). exact Hc.
Qed.
Lemma decrypts_typed (e : names) args occs free x x' p f : succeeds e lib sha512 args occs free x x' -> asks_to_decrypt occs -> no_key occs ->
  types_password (w_ui x) false p -> In f free -> decrypts_with lib sha512 e args occs free x x' (Password (utf8 p)).
Proof.
  intros Hs As K T If. destruct (succeeds_decrypt lib sha512 e _ _ _ _ _ _ Hs As If) as (tin & tout & terr & streams & policy & c & u & u2 & Ep & Hc & P & G & Iu).
  assert (T2 : types_password u2 false p) by (destruct T as (s & rs & s' & E & T); exists s, rs, s'; split; [congruence|exact T]).
  pose proof (typed_credential _ _ _ _ _ _ _ _ _ _ P K T2 G) as ->. destruct Hs as (W & M & _ & No & Ns & _).
  exists tin, tout, terr, (files_in e (w_fs x)), streams, policy, u. repeat (split; [assumption|]). exact Hc.
Qed.

(** The keys of a generated pair belong together, for both algorithms if these have the same key pairs. *)
Lemma pair_matches c0 seed (fast : bool) : lib ChaCha20Poly1305Ietf = Some c0 ->
  (fast = true -> forall c c', lib ChaCha20Poly1305Ietf = Some c -> lib AES256GCM = Some c' -> forall s, cs_keypair c s = cs_keypair c' s) ->
  forall cs, lib (alg_of fast) = Some cs -> matches cs (PublicKey (fst (cs_keypair c0 seed))) (PrivateKey (snd (cs_keypair c0 seed))) /\ decryption_cred cs (PrivateKey (snd (cs_keypair c0 seed))).
Proof.
  intros E0 Sm cs Ec. assert (K : cs_keypair cs seed = cs_keypair c0 seed).
  { destruct fast; cbn [alg_of] in Ec; [symmetry; eapply Sm; eauto|congruence]. }
  split; cbn [matches decryption_cred]; exists seed; rewrite K; [apply surjective_pairing|reflexivity].
Qed.

Lemma public_convertible cs seed b : lib ChaCha20Poly1305Ietf = Some cs -> convertible lib (DoEncrypt (Complex [(1, PublicKey (fst (cs_keypair cs seed)))] 1 1) false) b.
Proof.
  intros E. apply (one_convertible lib cs); [exact Hl|exact E|constructor|discriminate|].
  intros er _. cbn [realisable]. destruct (agree cs (Hl _ _ E) seed (er_seed er)) as (k & A & _). rewrite A. discriminate.
Qed.
Lemma password_convertible cs p b : lib ChaCha20Poly1305Ietf = Some cs -> convertible lib (DoEncrypt (Complex [(1, Password p)] 1 1) false) b.
Proof. intros E. apply (one_convertible lib cs); [exact Hl|exact E|constructor|discriminate|]. intros er _. exact Logic.I. Qed.
End Flows.

(** Runs as filters (C80). *)
From Coq.Strings Require Import Byte String.
From Coq Require Import List NArith ZArith Bool PeanoNat Lia.
From Verif Require Import Base BaseFacts Shamir Errors Io HeaderIo HeaderIoSpec StreamSpec Text TextProofs TextProofs2 Util CliErrors Getopts Crypto HeaderCrypto CredSpec FileCrypto KeyFiles KeyProofs Ui UiSpec UiProofs Paths PathSpec PathProofs CliCreds Cli CliSpec CliProofs CliProofs2 CliProofs3 CliProofs4
  SettingsProofs OptSpec OptProofs CmdSpec CmdProofs Progress Fs Commands FsSpec FsProofs10 FsProofs12 FlowSpec FlowProofs FlowProofs2 FlowProofs3 FlowProofs4 HeaderCryptoProofs4 PipeSpec PipeProofs PropCommandLine PropUi.
Import ListNotations.
Local Open Scope N_scope.

(** ** Passwords as credentials *)

Lemma total_passwords (ps : list bytes) : total_shares (map (fun p => (1, Password p)) ps) = lenN ps.
Proof. induction ps as [|p ps IH]; [reflexivity|]. cbn [map total_shares fold_right fst]. fold (total_shares (map (fun p => (1, Password p)) ps)). rewrite IH. unfold lenN. cbn [length]. lia. Qed.
Lemma wf_passwords ps k : lenN ps < 2 ^ 64 -> wf_cred (Complex (map (fun p => (1, Password p)) ps) (lenN ps) k).
Proof.
  intros L. constructor; [| |symmetry; apply total_passwords|exact L]; apply Forall_forall; intros x I; apply in_map_iff in I as (p & <- & _); [cbn; lia|constructor].
Qed.
Lemma leaves_passwords ps n k : leaves (Complex (map (fun p => (1, Password p)) ps) n k) = map Password ps.
Proof. cbn [leaves]. induction ps as [|p ps IH]; [reflexivity|]. cbn [map concat snd app leaves]. f_equal. exact IH. Qed.
Lemma decryption_passwords cs qs : Forall (decryption_cred cs) (map Password qs).
Proof. apply Forall_forall. intros x I. apply in_map_iff in I as (p & <- & _). exact Logic.I. Qed.
Lemma sat_enough cs ps qs n k : sat cs (map Password qs) (Complex (map (fun p => (1, Password p)) ps) n k) <-> enough k ps qs.
Proof.
  split.
  - intros H. inversion H as [? d _ M|subs n' t sel S F T]; subst; [destruct M|].
    assert (K : exists some, selection some ps /\ sel = map (fun p => (1, Password p)) some).
    { clear - S. remember (map (fun p => (1, Password p)) ps) as l. revert ps Heql. induction S as [|a l k S IH|a l k S IH]; intros [|p ps] E; try discriminate E.
      - exists []. split; [constructor|reflexivity].
      - injection E as -> E. destruct (IH _ E) as (some & S' & ->). exists (p :: some). split; [constructor; exact S'|reflexivity].
      - injection E as -> E. destruct (IH _ E) as (some & S' & ->). exists some. split; [constructor; exact S'|reflexivity]. }
    destruct K as (some & S' & ->). exists some. split; [exact S'|]. rewrite total_passwords in T. split; [exact T|].
    intros p I. rewrite Forall_forall in F. specialize (F (1, Password p) (in_map _ _ _ I)). cbn [snd] in F. inversion F as [? d Id M|]; subst.
    apply in_map_iff in Id as (q & <- & Iq). cbn in M. subst q. exact Iq.
  - intros (some & S & T & I). apply sat_group with (sel := map (fun p => (1, Password p)) some).
    + clear - S. induction S; cbn [map]; constructor; assumption.
    + apply Forall_forall. intros x J. apply in_map_iff in J as (p & <- & Ip). apply sat_leaf with (Password p); [apply in_map, I, Ip|reflexivity].
    + rewrite total_passwords. exact T.
Qed.

(** ** Runs *)

Section Runs.
Variable lib : crypto_lib.
Variable sha512 : bytes -> bytes.
Hypothesis Hl : lib_ok lib.

Definition from_source (free : list text) (i : input_stream) : Prop :=
  (free = [] \/ free = [lit "-"]) /\ i = IStdin \/ exists a, free = [a] /\ a <> lit "-" /\ i = IFileStream (components a).
Lemma from_source_not free i : from_source free i -> forall p, i <> IFile p.
Proof. intros [[_ ->]|(a & _ & _ & ->)]; discriminate. Qed.

Lemma filters_encrypt (e : names) args occs free w w' : filters e lib sha512 args occs free w w' -> asks_to_encrypt occs ->
  exists i policy force c fast u u2,
    crypt_streams e lib [mkStream i (Ok OStdout)] policy force (DoEncrypt c fast) (set_ui w u) (Ok tt) w' /\ from_source free i /\
    parse_options args = Ok (mkMatches occs free) /\
    get_encrypt_credential sha512 (files_in e (w_fs w)) (mkMatches occs free) force u2 = (Ok c, u) /\ u_input u2 = u_input (w_ui w) /\
    (fast = true <-> given OFast occs).
Proof.
  intros (R & To & tin & tout & terr & Nh & H) As. destruct (main_command _ _ _ _ _ _ _ _ _ _ H) as (c & u & x & Ep & Hc).
  destruct (command_line_inv _ _ _ _ _ _ _ _ _ Ep) as (m & P & Pf & C). pose proof (means_is _ _ _ _ R P) as ->.
  rewrite (mode_encrypt _ _ As) in Pf. replace (match args with [] => true | _ => false end && tout) with false in Pf by (destruct args, tout; try reflexivity; destruct Nh; auto).
  destruct c as [streams policy force dir|ks force| |]; try contradiction Pf. destruct dir as [c fast|cs]; [|contradiction Pf].
  destruct (C _ _ _ _ eq_refl) as (d & u1 & u2 & Ed & Ef & Hs & Hk & D & E1 & _).
  pose proof (proj2 Ed (ex_intro _ c (ex_intro _ fast eq_refl))) as ->. destruct D as (c' & fast' & E & D). injection E as <- <-.
  destruct (C69_options_have_their_effect _ _ _ _ _ _ _ _ _ _ _ _ _ _ R Ep) as (Fo & _ & So & Fa).
  destruct So as [[_ (i & -> & Si)]|[N _]]; [|contradiction].
  exists i, policy, force, c, fast, u, u2. split; [destruct x; exact Hc|]. split; [exact Si|]. split; [exact P|]. split; [exact D|].
  split; [rewrite (dash_adjust _ _ _ _ _ _ _ _ _ Hk), E1; reflexivity|]. exact (Fa c fast eq_refl).
Qed.
Lemma filters_decrypt (e : names) args occs free w w' : filters e lib sha512 args occs free w w' -> asks_to_decrypt occs ->
  exists i policy force cs u u2,
    crypt_streams e lib [mkStream i (Ok OStdout)] policy force (DoDecrypt cs) (set_ui w u) (Ok tt) w' /\ from_source free i /\
    parse_options args = Ok (mkMatches occs free) /\
    get_decrypt_credentials sha512 (files_in e (w_fs w)) (mkMatches occs free) force u2 = (Ok cs, u) /\ u_input u2 = u_input (w_ui w).
Proof.
  intros (R & To & tin & tout & terr & Nh & H) As. destruct (main_command _ _ _ _ _ _ _ _ _ _ H) as (c & u & x & Ep & Hc).
  destruct (command_line_inv _ _ _ _ _ _ _ _ _ Ep) as (m & P & Pf & C). pose proof (means_is _ _ _ _ R P) as ->.
  rewrite (mode_decrypt _ _ As) in Pf. replace (match args with [] => true | _ => false end && tout) with false in Pf by (destruct args, tout; try reflexivity; destruct Nh; auto).
  destruct c as [streams policy force dir|ks force| |]; try contradiction Pf. destruct dir as [c fast|cs]; [contradiction Pf|].
  destruct (C _ _ _ _ eq_refl) as (d & u1 & u2 & Ed & Ef & Hs & Hk & D & E1 & _).
  assert (d = Decrypt) as -> by (destruct d; [destruct (proj1 Ed eq_refl) as (? & ? & X); discriminate X|reflexivity]). destruct D as (cs' & E & D). injection E as <-.
  destruct (C69_options_have_their_effect _ _ _ _ _ _ _ _ _ _ _ _ _ _ R Ep) as (Fo & _ & So & Fa).
  destruct So as [[_ (i & -> & Si)]|[N _]]; [|contradiction].
  exists i, policy, force, cs, u, u2. split; [destruct x; exact Hc|]. split; [exact Si|]. split; [exact P|]. split; [exact D|].
  rewrite (dash_adjust _ _ _ _ _ _ _ _ _ Hk), E1. reflexivity.
Qed.

(** The output of a successful run is the conversion of what is supplied. *)
Lemma streamed (e : names) i policy force d w u w' free rest b :
  crypt_streams e lib [mkStream i (Ok OStdout)] policy force d (set_ui w u) (Ok tt) w' -> from_source free i -> u_input u = Some rest ->
  supplied e (w_fs w) rest free b -> exists c, w_stdout w' = w_stdout w ++ c /\ is_conversion lib d b c.
Proof.
  intros H Fs Iu Su. destruct (stream_output e lib Hl _ _ _ _ _ _ _ H (from_source_not _ _ Fs) eq_refl) as (b' & c & Cv & Ew & K1 & K2).
  exists c. split; [exact Ew|]. assert (b' = b) as <-; [|exact Cv].
  destruct Su as [[Fr ->]|(a & -> & Na & Ct)].
  - destruct Fs as [[_ Ei]|(a & E & N & _)].
    + destruct (K1 Ei) as (s & Es & ->). cbn [set_ui w_ui] in Es. congruence.
    + exfalso. destruct Fr as [Fr|Fr]; [congruence|]. apply N. congruence.
  - destruct Fs as [[[Fr|Fr] _]|(a' & [= <-] & _ & Ei)]; [discriminate Fr|congruence|].
    destruct (K2 _ Ei) as (s & t & Es & Et & K). cbn [set_ui w_fs] in *. unfold content in Ct. rewrite Es, Et in Ct.
    destruct (f_entries (w_fs w) t) as [[j|l|]|]; try discriminate Ct. destruct (f_nodes (w_fs w) j) as [n|] eqn:En; [|discriminate Ct].
    destruct (n_regular n) eqn:Er; [|discriminate Ct]. injection Ct as <-. exact (K j n eq_refl En Er).
Qed.

(** Key pairs: reading the keys leaves the standard input alone. *)
Lemma public_untouched files args occs free force u c u' v pk : parse_options args = Ok (mkMatches occs free) -> only_key OPublicKey v occs ->
  read_file_lines (files v) (public_key_line sha512 force) = Ok [PublicKey pk] ->
  get_encrypt_credential sha512 files (mkMatches occs free) force u = (Ok c, u') -> c = Complex [(1, PublicKey pk)] 1 1 /\ u' = u.
Proof.
  intros P K R H. split; [exact (public_credential _ _ _ _ _ _ _ _ _ _ _ P K R H)|].
  destruct (get_encrypt_inv _ _ _ _ _ _ _ _ P H) as (ts & F & Hp).
  destruct (only_occ OPublicKey v occs free) as (pos & E); [unfold key_option; cbn; tauto|exact K|]. rewrite E in F.
  inversion F as [|? t ? ts' T F']; subst. inversion F'; subst. inversion T; subst. clear F F' T E.
  cbn [default_tokens] in Hp. unfold parse_complex_credential in Hp. apply CliProofs.bind_ok in Hp as ([c' rest] & u1 & Hp & Hr). injection Hr as <- <-.
  cbn -[read_file_lines] in Hp. unfold bind_act, ensure_act, lift, ret in Hp. cbn -[read_file_lines] in Hp. unfold lift in Hp. rewrite R in Hp. cbn in Hp. congruence.
Qed.
Lemma private_untouched files args occs free force u cs u' v sk : parse_options args = Ok (mkMatches occs free) -> only_key OPrivateKey v occs ->
  read_file_lines (files v) (private_key_line sha512 force) = Ok [PrivateKey sk] ->
  get_decrypt_credentials sha512 files (mkMatches occs free) force u = (Ok cs, u') -> cs = [PrivateKey sk] /\ u' = u.
Proof.
  intros P K R H. split; [exact (private_credential _ _ _ _ _ _ _ _ _ _ _ P K R H)|]. destruct (get_decrypt_inv _ _ _ _ _ _ _ _ P H) as (ts & F & Hp).
  destruct (only_occ OPrivateKey v occs free) as (pos & E); [unfold key_option; cbn; tauto|exact K|]. rewrite E in F.
  inversion F as [|? t ? ts' T F']; subst. inversion F'; subst. inversion T; subst. clear F F' T E.
  cbn [default_tokens] in Hp. destruct (decrypt_tokens_ok _ _ _ _ _ _ _ Hp) as [Rd _].
  inversion Rd as [|t ts v0 u1 v' cs1 cs2 Ht R2]; subst. inversion R2; subst. cbn [read_token] in Ht. apply CliProofs.bind_ok in Ht as ([] & u2 & Ht1 & Ht).
  apply lift_ok in Ht as [_ ->]. unfold ensure_act in Ht1. apply lift_ok in Ht1 as [_ ->]. reflexivity.
Qed.

(** One recipient and a matching credential. *)
Lemma one_restored c d (fast : bool) b cf b' : wf_cred c -> leaves c = [c] -> (forall cs, lib (alg_of fast) = Some cs -> matches cs c d /\ decryption_cred cs d) ->
  is_conversion lib (DoEncrypt (Complex [(1, c)] 1 1) fast) b cf -> is_conversion lib (DoDecrypt [d]) cf b' -> b' = b.
Proof.
  intros Wc Lc Mc C1 C2.
  assert (Wg : wf_cred (Complex [(1, c)] 1 1)) by (constructor; [constructor; [cbn; lia|constructor]|constructor; [exact Wc|constructor]|reflexivity|reflexivity]).
  destruct (conversion_restored lib Hl _ _ _ _ _ _ Wg C1) as (er & ser & cod & chunk & Hr & He & Hh & Z).
  assert (Ecs : lib (alg_of fast) = Some (co_cs cod)) by exact (encrypt_header_algorithm lib _ _ _ _ _ He).
  destruct (Mc _ Ecs) as [Mm Md].
  apply (Z [d]); [constructor; [exact Md|constructor]| |exact C2].
  intros i l ct dd Hi _ [<-|[]] _. cbn [expression eo_sub_creds leaves map concat snd] in Hi. rewrite Lc in Hi. cbn [app] in Hi. destruct i as [|[|i]]; [injection Hi as <-; exact Mm|discriminate Hi..].
Qed.
Lemma one_convertible c d (fast : bool) b cf : wf_cred c -> leaves c = [c] -> (forall cs, lib (alg_of fast) = Some cs -> matches cs c d /\ decryption_cred cs d) ->
  is_conversion lib (DoEncrypt (Complex [(1, c)] 1 1) fast) b cf -> convertible lib (DoDecrypt [d]) cf.
Proof.
  intros Wc Lc Mc C1.
  assert (Wg : wf_cred (Complex [(1, c)] 1 1)) by (constructor; [constructor; [cbn; lia|constructor]|constructor; [exact Wc|constructor]|reflexivity|reflexivity]).
  destruct (conversion_restored lib Hl _ _ _ _ _ _ Wg C1) as (er & ser & cod & chunk & Hr & He & Hh & Z).
  assert (Ecs : lib (alg_of fast) = Some (co_cs cod)) by exact (encrypt_header_algorithm lib _ _ _ _ _ He).
  destruct (Mc _ Ecs) as [Mm Md].
  apply (Z [d]); [constructor; [exact Md|constructor]| |].
  - intros i l ct dd Hi _ [<-|[]] _. cbn [expression eo_sub_creds leaves map concat snd] in Hi. rewrite Lc in Hi. cbn [app] in Hi. destruct i as [|[|i]]; [injection Hi as <-; exact Mm|discriminate Hi..].
  - apply (sat_group _ _ [(1, c)] 1 1 [(1, c)]); [constructor; constructor|constructor; [|constructor]|cbn; lia].
    cbn [snd]. eapply sat_leaf; [left; reflexivity|exact Mm].
Qed.
End Runs.

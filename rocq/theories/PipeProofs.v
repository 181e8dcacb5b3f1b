(** Facts about passwords on the command line (C80). *)
From Coq.Strings Require Import Byte String.
From Coq Require Import List NArith ZArith Bool PeanoNat Lia.
From Verif Require Import Base BaseFacts Shamir Errors Io HeaderIo HeaderIoSpec StreamSpec Text TextProofs TextProofs2 Util CliErrors Getopts Crypto HeaderCrypto CredSpec FileCrypto KeyFiles KeyProofs Ui UiSpec UiProofs Paths PathSpec PathProofs CliCreds Cli CliSpec CliProofs CliProofs2 CliProofs3 CliProofs4
  OptSpec OptProofs CmdSpec CmdProofs Progress Fs Commands FsSpec FlowSpec FlowProofs FlowProofs4 PipeSpec PropUi.
Import ListNotations.
Local Open Scope N_scope.

(** ** Password files *)

Lemma white_iff c : white c <-> is_whitespace c = true.
Proof.
  unfold white, is_whitespace. split.
  - intros H. cbn [In] in H. repeat (destruct H as [<-|H]; [reflexivity|]). destruct H.
  - intros H. rewrite !orb_true_iff, !andb_true_iff, !N.eqb_eq, !N.leb_le in H. cbn [In].
    assert (K : c = 9 \/ c = 10 \/ c = 11 \/ c = 12 \/ c = 13 \/ c = 32 \/ c = 133 \/ c = 160 \/ c = 5760 \/ c = 8192 \/ c = 8193 \/ c = 8194 \/ c = 8195 \/ c = 8196 \/ c = 8197 \/ c = 8198 \/ c = 8199 \/ c = 8200 \/ c = 8201 \/ c = 8202 \/ c = 8232 \/ c = 8233 \/ c = 8239 \/ c = 8287 \/ c = 12288) by lia.
    clear H. repeat (destruct K as [->|K]; [tauto|]). rewrite K. tauto.
Qed.
Lemma not_white c : ~ white c -> is_whitespace c = false.
Proof. intros N. destruct (is_whitespace c) eqn:E; [|reflexivity]. destruct N. apply white_iff, E. Qed.
Lemma trim_start_app a t : Forall white a -> trim_start (a ++ t) = trim_start t.
Proof. induction 1 as [|c a W F IH]; [reflexivity|]. cbn [app trim_start]. apply white_iff in W. rewrite W. exact IH. Qed.
Lemma trim_start_stop c t : ~ white c -> trim_start (c :: t) = c :: t.
Proof. intros N. cbn [trim_start]. rewrite (not_white c N). reflexivity. Qed.
Lemma trim_blank l : Forall white l -> trim l = [].
Proof. intros F. unfold trim. rewrite <- (app_nil_r l), trim_start_app by exact F. reflexivity. Qed.
Lemma trim_word a c m d b : Forall white a -> Forall white b -> ~ white c -> ~ white d -> trim (a ++ (c :: m ++ [d]) ++ b) = c :: m ++ [d].
Proof.
  intros Fa Fb Nc Nd. unfold trim. rewrite trim_start_app by exact Fa. cbn [app]. rewrite trim_start_stop by exact Nc.
  cbn [rev]. rewrite !rev_app_distr, <- app_assoc, trim_start_app by (apply Forall_rev, Fb). cbn [rev app]. rewrite trim_start_stop by exact Nd.
  cbn [rev]. rewrite rev_app_distr, rev_involutive. reflexivity.
Qed.
Lemma trim_one a c b : Forall white a -> Forall white b -> ~ white c -> trim (a ++ [c] ++ b) = [c].
Proof.
  intros Fa Fb Nc. unfold trim. rewrite trim_start_app by exact Fa. cbn [app]. rewrite trim_start_stop by exact Nc.
  cbn [rev]. rewrite trim_start_app by (apply Forall_rev, Fb). rewrite trim_start_stop by exact Nc. reflexivity.
Qed.
Definition words_of (l : list N) : list (list N) := filter (fun l => match l with [] => false | _ => true end) [trim l].
Lemma words_of_line l ws : line_word l ws -> words_of l = ws.
Proof.
  unfold words_of. intros [l' F|a c b Fa Fb Nc|a c m d b Fa Fb Nc Nd]; [rewrite trim_blank by exact F|rewrite trim_one by assumption|rewrite trim_word by assumption]; reflexivity.
Qed.
Lemma trim_drop_cr l : trim (drop_cr l) = trim l.
Proof.
  unfold drop_cr. destruct (rev l) as [|c r] eqn:E; [reflexivity|]. destruct (c =? 13) eqn:Ec; [|reflexivity]. apply N.eqb_eq in Ec as ->.
  assert (El : l = rev r ++ [13]) by (rewrite <- (rev_involutive l), E; reflexivity). rewrite El. clear.
  unfold trim. generalize (rev r) as t. clear. intros t.
  assert (A : forall t, trim_start (t ++ [13]) = trim_start t ++ [13] \/ (trim_start (t ++ [13]) = [] /\ trim_start t = [])).
  { clear. induction t as [|c t IH]; [right; split; reflexivity|]. cbn [app trim_start]. destruct (is_whitespace c); [exact IH|left; reflexivity]. }
  destruct (A t) as [-> |[-> ->]]; [|reflexivity]. rewrite rev_app_distr. cbn [rev app]. replace (trim_start (13 :: rev (trim_start t))) with (trim_start (rev (trim_start t))) by reflexivity. reflexivity.
Qed.
Lemma lines_last l : ~ In 10 l -> lines l = match l with [] => [] | _ => [drop_cr l] end.
Proof.
  intros N. unfold lines. destruct l as [|c l]; [reflexivity|]. cbn [length lines_fuel].
  assert (A : forall l, ~ In 10 l -> split_line l = (l, None)).
  { clear. induction l as [|c l IH]; intros N; [reflexivity|]. cbn [split_line]. destruct (c =? 10) eqn:E; [apply N.eqb_eq in E; destruct N; left; exact E|]. rewrite IH by (intros I; apply N; right; exact I). reflexivity. }
  rewrite A by exact N. reflexivity.
Qed.
Lemma line_words_spec t ws : line_words t ws -> filter (fun l => match l with [] => false | _ => true end) (map trim (lines t)) = ws.
Proof.
  intros H. induction H as [|l ws N L|l ws t ws' N L H IH].
  - reflexivity.
  - apply words_of_line in L. rewrite lines_last by exact N. destruct l as [|c l]; [exact L|]. cbn [map]. rewrite trim_drop_cr. exact L.
  - apply words_of_line in L. cbn [app]. rewrite lines_cons by exact N. cbn [map]. rewrite trim_drop_cr. rewrite <- L, <- IH. unfold words_of. cbn [filter]. destruct (trim l); reflexivity.
Qed.
Lemma password_file b ps cs : file_passwords b ps -> read_file_lines (Some b) password_line = Ok cs -> cs = map Password ps.
Proof.
  intros (t & ws & St & -> & W & ->) H. unfold read_file_lines in H. rewrite from_utf8_utf8 in H by exact St. cbn [bind] in H. rewrite (line_words_spec _ _ W) in H.
  assert (M : forall l, map_out password_line l = Ok (map (fun w => Password (utf8 w)) l)).
  { induction l as [|w l IH]; [reflexivity|]. cbn [map_out]. rewrite IH. reflexivity. }
  rewrite M in H. cbn [bind] in H. rewrite map_map. destruct (map (fun w => Password (utf8 w)) ws); [discriminate H|]. injection H as <-. reflexivity.
Qed.
Lemma password_file_run b ps : file_passwords b ps -> ps <> [] -> read_file_lines (Some b) password_line = Ok (map Password ps).
Proof.
  intros (t & ws & St & -> & W & ->) N. unfold read_file_lines. rewrite from_utf8_utf8 by exact St. cbn [bind]. rewrite (line_words_spec _ _ W).
  assert (M : forall l, map_out password_line l = Ok (map (fun w => Password (utf8 w)) l)).
  { induction l as [|w l IH]; [reflexivity|]. cbn [map_out]. rewrite IH. reflexivity. }
  rewrite M. cbn [bind]. rewrite map_map. destruct ws as [|w ws]; [contradiction|]. reflexivity.
Qed.

(** ** Several passwords with a threshold *)

Lemma forall2_in_r {A B} (R : A -> B -> Prop) l k b : Forall2 R l k -> In b k -> exists a, In a l /\ R a b.
Proof.
  induction 1 as [|x y l k Rxy F IH]; intros []; [subst; exists x; split; [left; reflexivity|assumption]|].
  destruct IH as (a & Ia & Ra); [assumption|]. exists a. split; [right|]; assumption.
Qed.

Section WithFiles.
Variable sha512 : bytes -> bytes.
Variable files : text -> option bytes.
Notation read_token := (read_token sha512 files).
Notation reads := (reads sha512 files).
Notation parse_loop := (parse_loop sha512 files).

Definition is_key (t : token) : bool :=
  match t with StartGroup | EndGroup | RequireAllKeys | KeyThreshold _ | KeyShares _ => false | _ => true end.
Lemma is_key_iff t : is_key t = true <-> key_token t.
Proof. destruct t; cbn; split; intros; try exact Logic.I; try discriminate; try contradiction; reflexivity. Qed.
Definition flat_token (t : token) : Prop := match t with StartGroup | EndGroup | KeyShares _ => False | _ => True end.

Lemma flat_loop fuel : forall sk st ts u c rest u', parse_loop fuel Encrypt sk 0 st ts u = (Ok (c, rest), u') ->
  Forall flat_token ts -> p_next_key_shares st = 1 -> p_num_shares st < two64 ->
  exists cs th, reads Encrypt sk u (filter is_key ts) u' cs /\
    (forall n, In (KeyThreshold n) ts -> th = Some (Threshold n)) /\ (In RequireAllKeys ts -> th = Some AllKeys) /\
    ((forall n, ~ In (KeyThreshold n) ts) -> ~ In RequireAllKeys ts -> th = p_threshold st) /\ (p_threshold st <> None -> th = p_threshold st) /\
    let n := wrap64 (p_num_shares st + lenN cs) in let k := needed th n in
    1 <= k <= n /\ c = Complex (p_sub_creds st ++ map (fun c => (1, c)) cs) n k.
Proof.
  induction fuel as [|fuel IH]; intros sk st ts u c rest u' H F En Lt; [discriminate H|].
  destruct ts as [|t ts].
  { rewrite loop_nil in H. apply CliProofs.bind_ok in H as (a & u1 & H1 & H2). apply lift_ok in H1 as [H1 ->].
    apply ret_ok in H2 as [[= <- <-] ->]. apply finish_inv in H1 as (_ & A & B & ->).
    exists [], (p_threshold st). split; [constructor|]. split; [intros n []|]. split; [intros []|]. split; [reflexivity|]. split; [reflexivity|]. cbn zeta.
    change (lenN (@nil cred)) with 0. rewrite N.add_0_r, wrap64_id by exact Lt. cbn [map]. rewrite app_nil_r. split; [lia|reflexivity]. }
  inversion F as [|? ? Ft F']; subst. destruct (is_key t) eqn:K.
  - cbn [filter]. rewrite K. apply is_key_iff in K. rewrite loop_key in H by exact K.
    apply CliProofs.bind_ok in H as (cs & u1 & H1 & H). apply CliProofs.bind_ok in H as (st1 & u2 & H2 & H).
    apply add_creds_ok in H2 as (_ & -> & ->).
    destruct (IH _ _ _ _ _ _ _ H F' eq_refl (wrap64_lt _)) as (cs' & th & R & A & B & C & D & E & ->). cbn [p_sub_creds p_num_shares p_threshold p_next_key_shares] in *.
    exists (cs ++ cs'), th. split; [econstructor; eassumption|].
    assert (Q : wrap64 (p_num_shares st + lenN (cs ++ cs')) = wrap64 (wrap64 (p_num_shares st + wrap64 (p_next_key_shares st * lenN cs)) + lenN cs')).
    { rewrite En, N.mul_1_l. assert (lenN (cs ++ cs') = lenN cs + lenN cs') as -> by (unfold lenN; rewrite app_length; lia).
      unfold wrap64. rewrite N.add_mod_idemp_r, N.add_mod_idemp_l by discriminate. f_equal. lia. }
    cbn zeta in *. rewrite Q. split; [intros n [->|I]; [destruct K|apply A, I]|]. split; [intros [->|I]; [destruct K|apply B, I]|].
    split; [intros N1 N2; apply C; [intros n I; exact (N1 n (or_intror I))|intros I; apply N2; right; exact I]|]. split; [exact D|]. split; [exact E|].
    rewrite En, map_app, app_assoc. reflexivity.
  - cbn [filter]. rewrite K. destruct t; cbn in Ft, K; try contradiction; try discriminate K; cbn [CliCreds.parse_loop] in H;
      apply CliProofs.bind_ok in H as (? & u1 & H1 & H); unfold ensure_act in H1; apply lift_ok in H1 as [_ ->]; apply CliProofs.bind_ok in H as (? & u1 & H1 & H); apply lift_ok in H1 as [_ ->];
      apply CliProofs.bind_ok in H as (? & u1 & H1 & H); apply lift_ok in H1 as [H1 ->]; (destruct (p_threshold st) eqn:Et; [discriminate H1|]); clear H1;
      destruct (IH _ _ _ _ _ _ _ H F' En Lt) as (cs' & th & R & A & B & C & D & E & ->); cbn [p_sub_creds p_num_shares p_threshold p_next_key_shares] in *;
      exists cs', th; (split; [exact R|]); specialize (D ltac:(discriminate)).
    + split; [intros m [[= ->]|I]; [exact D|apply A, I]|]. split; [intros [X|I]; [discriminate X|apply B, I]|]. split; [intros N1 _; destruct (N1 n (or_introl eq_refl))|]. split; [intros X; destruct (X eq_refl)|].
      cbn zeta in *. split; [exact E|reflexivity].
    + split; [intros m [X|I]; [discriminate X|apply A, I]|]. split; [intros [_|I]; [exact D|apply B, I]|]. split; [intros _ N1; destruct (N1 (or_introl eq_refl))|]. split; [intros X; destruct (X eq_refl)|].
      cbn zeta in *. split; [exact E|reflexivity].
Qed.

(** What is read are the passwords that are provided. *)
Lemma provided_read d sk twice s occs s' ps : is_encrypt d = twice -> provides_passwords files twice s occs s' ps -> only_passwords occs ->
  forall ts u u' cs, Forall2 occ_token (filter (fun o => credential_opt (o_opt o)) occs) ts -> u_input u = Some s -> reads d sk u (filter is_key ts) u' cs ->
  cs = map Password ps /\ u_input u' = Some s'.
Proof.
  intros Ed P. induction P as [s|s rs s1 p x occs s' ps Ix Rs Ac P IH|s x v b qs occs s' ps Ex Ev Ef Fp P IH|s x occs s' ps Nx P IH]; intros Op ts u u' cs F Iu R.
  - inversion F; subst. inversion R; subst. split; [reflexivity|exact Iu].
  - assert (Op' : only_passwords occs) by (intros o (y & Iy & Ey); apply Op; exists y; split; [right; exact Iy|exact Ey]). specialize (IH Op').
    assert (Cx : credential_opt (o_opt x) = true) by (destruct Ix as [<-|[<-|[]]]; reflexivity). cbn [filter] in F. rewrite Cx in F. inversion F as [|? t ? ts' T F']; subst.
    assert (Rt : is_key t = true /\ exists name, read_token d sk t = (let+ c := read_password_interactively d name in ret [c])).
    { inversion T; subst; cbn in Ix; try (repeat (destruct Ix as [Ix|Ix]; [discriminate Ix|]); destruct Ix); (split; [reflexivity|]); eexists; reflexivity. }
    destruct Rt as [K (name & Rt)]. cbn [filter] in R. rewrite K in R. inversion R as [|? ? ? u1 ? cs1 cs2 H1 R']; subst. rewrite Rt in H1.
    apply CliProofs.bind_ok in H1 as (c & u2 & H1 & H2). apply ret_ok in H2 as [<- ->].
    destruct (C38_password_confirmed _ _ _ _ _ H1) as (s2 & rs2 & p2 & s2' & Iu2 & Rs2 & Ac2 & -> & Iu3). rewrite Iu in Iu2. injection Iu2 as <-.
    destruct (dialogue_fun _ _ _ Ac _ _ _ _ _ Rs Rs2 Ac2) as [<- <-]. destruct (IH _ _ _ _ F' Iu3 R') as [-> Iu4]. split; [reflexivity|exact Iu4].
  - assert (Op' : only_passwords occs) by (intros o (y & Iy & Ey); apply Op; exists y; split; [right; exact Iy|exact Ey]). specialize (IH Op').
    cbn [filter] in F. rewrite Ex in F. cbn [credential_opt] in F. inversion F as [|? t ? ts' T F']; subst. destruct x as [pos o val]. cbn in Ex, Ev. subst o val. inversion T; subst.
    cbn [filter is_key] in R. inversion R as [|? ? ? u1 ? cs1 cs2 H1 R']; subst. cbn [CliCreds.read_token] in H1. apply lift_ok in H1 as [H1 ->]. rewrite Ef in H1.
    rewrite (password_file _ _ _ Fp H1). destruct (IH _ _ _ _ F' Iu R') as [-> Iu4]. split; [rewrite map_app; reflexivity|exact Iu4].
  - assert (Op' : only_passwords occs) by (intros o (y & Iy & Ey); apply Op; exists y; split; [right; exact Iy|exact Ey]). specialize (IH Op').
    cbn [filter] in F. destruct (credential_opt (o_opt x)) eqn:Cx; [|exact (IH _ _ _ _ F Iu R)]. inversion F as [|? t ? ts' T F']; subst.
    assert (K : is_key t = false).
    { specialize (Op (o_opt x) (ex_intro _ x (conj (or_introl eq_refl) eq_refl))). inversion T; subst; cbn [o_opt] in *; try reflexivity; exfalso; (apply Nx; cbn; tauto) || (apply Op; cbn; tauto). }
    cbn [filter] in R. rewrite K in R. exact (IH _ _ _ _ F' Iu R).
Qed.

Lemma key_occ occs free : (exists o, key_option o /\ given o occs) -> credential_occs (mkMatches occs free) <> [].
Proof.
  intros (o & K & x & I & E) N. assert (J : In x (credential_occs (mkMatches occs free))).
  { apply filter_In. split; [exact I|]. rewrite E. unfold key_option in K. cbn in K. repeat (destruct K as [<-|K]; [reflexivity|]). destruct K. }
  rewrite N in J. destruct J.
Qed.
Lemma flat_tokens occs free ts : only_passwords occs -> Forall2 occ_token (credential_occs (mkMatches occs free)) ts -> Forall flat_token ts.
Proof.
  intros Op F. apply Forall_forall. intros t It.
  assert (K : exists x, In x (credential_occs (mkMatches occs free)) /\ occ_token x t).
  { clear Op. induction F as [|x y l k R F IH]; [destruct It|]. destruct It as [->|It]; [exists x; split; [left; reflexivity|exact R]|]. destruct (IH It) as (z & Iz & Rz). exists z. split; [right; exact Iz|exact Rz]. }
  destruct K as (x & Ix & T). apply filter_In in Ix as [Ix _]. specialize (Op (o_opt x) (ex_intro _ x (conj Ix eq_refl))).
  destruct T; cbn [o_opt flat_token] in *; try exact Logic.I; apply Op; cbn; tauto.
Qed.

Lemma encrypt_passwords args occs free sk u c u' s s' ps : parse_options args = Ok (mkMatches occs free) -> only_passwords occs -> u_input u = Some s ->
  given_passwords files true s occs s' ps -> lenN ps < 2 ^ 64 -> get_encrypt_credential sha512 files (mkMatches occs free) sk u = (Ok c, u') ->
  u_input u' = Some s' /\ exists k, how_many occs (lenN ps) k /\ 1 <= k <= lenN ps /\ c = Complex (map (fun p => (1, Password p)) ps) (lenN ps) k.
Proof.
  intros P Op Iu G Ln H. destruct (get_encrypt_inv _ _ _ _ _ _ _ _ P H) as (ts & F & Hp).
  unfold parse_complex_credential in Hp. apply CliProofs.bind_ok in Hp as ([c' rest] & u1 & Hp & Hr). apply ret_ok in Hr as [Ec Eu]. subst c' u1.
  assert (Ft : Forall flat_token (default_tokens ts)) by (pose proof (flat_tokens _ _ _ Op F) as X; destruct ts; [repeat constructor|exact X]).
  destruct (flat_loop _ _ _ _ _ _ _ _ Hp Ft eq_refl eq_refl) as (cs & th & R & A & B & C & _ & E & ->). cbn [initial_state p_sub_creds p_num_shares p_threshold app] in *. rewrite N.add_0_l in *.
  assert (K : cs = map Password ps /\ u_input u' = Some s' /\ how_many occs (lenN ps) (needed th (lenN ps))).
  { destruct G as [(Nk & rs & p & Rs & Ac & ->)|(Hk & G)].
    - pose proof F as F0. rewrite (no_occ occs free Nk) in F0. inversion F0; subst ts. cbn [default_tokens filter is_key] in R.
      inversion R as [|? ? ? v ? cs1 cs2 H1 R']; subst. inversion R'; subst. cbn [CliCreds.read_token] in H1. apply CliProofs.bind_ok in H1 as (x & u2 & H1 & H2). apply ret_ok in H2 as [<- ->].
      destruct (C38_password_confirmed _ _ _ _ _ H1) as (s2 & rs2 & p2 & s2' & Iu2 & Rs2 & Ac2 & -> & Iu3). rewrite Iu in Iu2. injection Iu2 as <-.
      destruct (dialogue_fun _ _ _ Ac _ _ _ _ _ Rs Rs2 Ac2) as [<- <-]. split; [reflexivity|]. split; [exact Iu3|].
      assert (th = None) as -> by (apply C; [intros n [X|[]]; discriminate X|intros [X|[]]; discriminate X]).
      assert (N : forall o, key_option o -> ~ given o occs) by exact Nk. split; [intros v0 (x & Ix & Ex & _); destruct (N OKeyThreshold); [unfold key_option; cbn; tauto|exists x; auto]|].
      split; [intros X; destruct (N ORequireAllKeys); [unfold key_option; cbn; tauto|exact X]|reflexivity].
    - assert (default_tokens ts = ts) as Dt by (pose proof (key_occ occs free Hk) as X; destruct ts; [inversion F as [Z|]; congruence|reflexivity]). rewrite Dt in *.
      destruct (provided_read Encrypt sk true s occs s' ps eq_refl G Op ts u u' cs F Iu R) as [-> Iu']. split; [reflexivity|]. split; [exact Iu'|].
      assert (L : forall x, In x occs -> credential_opt (o_opt x) = true -> exists t, In t ts /\ occ_token x t).
      { intros x Ix Cx. apply (forall2_in_l _ _ _ _ F). apply filter_In. auto. }
      split; [|split].
      + intros v (x & Ix & Ex & Ev). destruct x as [pos o val]. cbn in Ex, Ev. subst o val. destruct (L _ Ix eq_refl) as (t & It & T). inversion T; subst. rewrite (A _ It). assumption.
      + intros (x & Ix & Ex). destruct x as [pos o val]. cbn in Ex. subst o. destruct (L _ Ix eq_refl) as (t & It & T). inversion T; subst. rewrite (B It). reflexivity.
      + intros N1 N2. rewrite C; [reflexivity| |]; [intros n I|intros I].
        * destruct (forall2_in_r _ _ _ _ F I) as (x & Ix & T). inversion T; subst. apply filter_In in Ix as [Ix _]. apply N1. eexists. split; [exact Ix|reflexivity].
        * destruct (forall2_in_r _ _ _ _ F I) as (x & Ix & T). inversion T; subst. apply filter_In in Ix as [Ix _]. apply N2. eexists. split; [exact Ix|reflexivity]. }
  destruct K as (-> & Iu' & Hm). assert (Lw : wrap64 (lenN (map Password ps)) = lenN ps) by (rewrite wrap64_id; unfold lenN; rewrite map_length; [reflexivity|exact Ln]).
  cbn zeta in E. rewrite Lw in *. split; [exact Iu'|]. exists (needed th (lenN ps)). split; [exact Hm|]. split; [exact E|]. rewrite map_map. reflexivity.
Qed.

Lemma decrypt_passwords args occs free sk u cs u' s s' ps : parse_options args = Ok (mkMatches occs free) -> only_passwords occs -> u_input u = Some s ->
  given_passwords files false s occs s' ps -> get_decrypt_credentials sha512 files (mkMatches occs free) sk u = (Ok cs, u') ->
  u_input u' = Some s' /\ cs = map Password ps.
Proof.
  intros P Op Iu G H. destruct (get_decrypt_inv _ _ _ _ _ _ _ _ P H) as (ts & F & Hp). destruct (decrypt_tokens_ok _ _ _ _ _ _ _ Hp) as [R K].
  assert (Fk : filter is_key (default_tokens ts) = default_tokens ts).
  { clear - K. induction K as [|t l Kt K IH]; [reflexivity|]. cbn [filter]. rewrite (proj2 (is_key_iff t) Kt), IH. reflexivity. }
  destruct G as [(Nk & rs & p & Rs & Ac & ->)|(Hk & G)].
  - rewrite (no_occ occs free Nk) in F. inversion F; subst ts. cbn [default_tokens] in R.
    inversion R as [|? ? ? v ? cs1 cs2 H1 R']; subst. inversion R'; subst. cbn [CliCreds.read_token] in H1. apply CliProofs.bind_ok in H1 as (x & u2 & H1 & H2). apply ret_ok in H2 as [<- ->].
    destruct (C38_password_confirmed _ _ _ _ _ H1) as (s2 & rs2 & p2 & s2' & Iu2 & Rs2 & Ac2 & -> & Iu3). rewrite Iu in Iu2. injection Iu2 as <-.
    destruct (dialogue_fun _ _ _ Ac _ _ _ _ _ Rs Rs2 Ac2) as [<- <-]. split; [exact Iu3|reflexivity].
  - assert (default_tokens ts = ts) as Dt by (pose proof (key_occ occs free Hk) as X; destruct ts; [inversion F as [Z|]; congruence|reflexivity]). rewrite Dt in *. rewrite <- Fk in R.
    destruct (provided_read Decrypt sk false s occs s' ps eq_refl G Op ts u u' cs F Iu R) as [-> Iu']. auto.
Qed.
End WithFiles.

(** From the command line to the credentials (C36, C37, C48). *)
From Coq.Strings Require Import Byte String.
From Coq Require Import List NArith Bool PeanoNat Permutation Lia.
From Verif Require Import Base BaseFacts Text Util CliErrors Getopts Crypto HeaderCrypto CredSpec KeyFiles KeyProofs Ui UiProofs2 CliCreds CliSpec CliProofs CliProofs2 CliProofs3.
Import ListNotations.
Local Open Scope N_scope.

Lemma default_perm (ts ts' : list token) : Permutation ts ts' -> (ts = [] <-> ts' = []).
Proof. intros P. split; intros ->; [apply Permutation_nil, P|apply Permutation_nil, Permutation_sym, P]. Qed.

Lemma wf_total subs n t : wf_cred (Complex subs n t) -> n = total_shares subs.
Proof. intros W. inversion W; subst. reflexivity. Qed.

Section WithEnvironment.
Variable sha512 : bytes -> bytes.
Variable files : text -> option bytes.
Notation parse := (parse_complex_credential sha512 files).

(** The result is that of the tokens in the order of the command line. *)
Lemma ordered_parse m ts d sk u c u' : all_later 0 (m_occs m) -> extract_tokens m = Ok ts ->
  parse d sk (default_tokens ts) u = (Ok c, u') ->
  exists ordered, Forall2 occ_token (credential_occs m) ordered /\ parse d sk (default_tokens ordered) u = (Ok c, u').
Proof.
  intros A E H. destruct (extract_order sha512 files m ts A E) as (o & F & P & _ & Hp). exists o. split; [exact F|].
  apply default_perm in P. destruct ts as [|t ts].
  - rewrite (proj1 P eq_refl). exact H.
  - destruct o as [|x o]; [discriminate (proj2 P eq_refl)|]. apply Hp, H.
Qed.

Lemma get_encrypt_inv args m force u c u' : parse_options args = Ok m -> get_encrypt_credential sha512 files m force u = (Ok c, u') ->
  exists ordered, Forall2 occ_token (credential_occs m) ordered /\ parse Encrypt force (default_tokens ordered) u = (Ok c, u').
Proof.
  intros A H. unfold get_encrypt_credential in H. apply bind_ok in H as (ts & u1 & H1 & H). apply lift_ok in H1 as [H1 ->].
  eapply ordered_parse; [eapply parse_options_later; exact A|exact H1|exact H].
Qed.

Lemma get_decrypt_tokens m force u r u' : get_decrypt_credentials sha512 files m force u = (Ok r, u') ->
  exists ts, extract_tokens m = Ok ts /\ decrypt_tokens sha512 files force (default_tokens ts) u = (Ok r, u').
Proof. intros H. unfold get_decrypt_credentials in H. apply bind_ok in H as (ts & u1 & H1 & H). apply lift_ok in H1 as [H1 ->]. eauto. Qed.

Lemma get_decrypt_inv args m force u cs u' : parse_options args = Ok m -> get_decrypt_credentials sha512 files m force u = (Ok cs, u') ->
  exists ordered, Forall2 occ_token (credential_occs m) ordered /\ decrypt_tokens sha512 files force (default_tokens ordered) u = (Ok cs, u').
Proof.
  intros A H. apply get_decrypt_tokens in H as (ts & E & H). pose proof H as H0. unfold decrypt_tokens in H. apply bind_ok in H as (c & u1 & H & H2).
  destruct (ordered_parse m ts _ _ _ _ _ (parse_options_later _ _ A) E H) as (o & F & Hp). exists o. split; [exact F|].
  unfold decrypt_tokens. unfold bind_act at 1. rewrite Hp. exact H2.
Qed.

Lemma get_decrypt_panic m force u u' : get_decrypt_credentials sha512 files m force u = (Panic, u') ->
  extract_tokens m = Panic \/ exists ts, extract_tokens m = Ok ts /\ decrypt_tokens sha512 files force (default_tokens ts) u = (Panic, u').
Proof.
  intros H. unfold get_decrypt_credentials in H. apply bind_panic in H as [H|(ts & u1 & H1 & H)].
  - left. unfold lift in H. congruence.
  - right. apply lift_ok in H1 as [H1 ->]. eauto.
Qed.

Lemma parse_digits_no_panic t : forall acc, parse_digits acc t <> Panic.
Proof. induction t as [|c t IH]; intros acc; cbn [parse_digits]; [discriminate|]. destruct ((48 <=? c) && (c <=? 57)); [|discriminate]. destruct (_ <? _); [apply IH|discriminate]. Qed.
Lemma parse_usize_no_panic v : parse_usize v <> Panic.
Proof.
  unfold parse_usize. cbv zeta. match goal with |- context [parse_digits 0 ?x] => generalize x as t end.
  intros [|c t]; [discriminate|]. apply parse_digits_no_panic.
Qed.
Lemma extract_no_panic m : extract_tokens m <> Panic.
Proof.
  rewrite extract_tokens_eq. unfold bind. destruct (extracted m) as [l| |] eqn:E; [|discriminate|].
  - cbv zeta. match goal with |- (if ?b then _ else _) <> _ => destruct b; discriminate end.
  - exfalso. unfold extracted, bind in E.
    match type of E with context [map_out ?f tokens_with_int_value] => assert (map_out f tokens_with_int_value <> Panic) as N end.
    { apply map_out_no_panic. intros [o f] _. apply map_out_no_panic. intros [pos val] _. pose proof (parse_usize_no_panic val). destruct (parse_usize val); congruence. }
    destruct (map_out _ tokens_with_int_value); try discriminate E. apply N. reflexivity.
Qed.

(** Reading credentials crashes only on private key files. *)
Lemma read_token_panic d sk t u u' : key_token t -> read_token sha512 files d sk t u = (Panic, u') ->
  exists f, t = PrivateKeyFile f /\ read_file_lines (files f) (private_key_line sha512 sk) = Panic.
Proof.
  intros K H.
  assert (forall d n, fst (read_password_interactively d n u) <> Panic) as NP.
  { intros d' n. unfold read_password_interactively. destruct (negb (can_read u)); [discriminate|].
    destruct (password_loop _ d' _ u) as [r v] eqn:E. apply password_loop_cases in E as (_ & X & _). apply X. lia. }
  destruct t; cbn [CliCreds.read_token] in H; try destruct K.
  - exfalso. apply bind_panic in H as [H|(c & v & _ & H)]; [|discriminate H]. apply (NP d None). rewrite H. reflexivity.
  - exfalso. apply bind_panic in H as [H|(c & v & _ & H)]; [|discriminate H]. apply (NP d (Some name)). rewrite H. reflexivity.
  - exfalso. unfold lift in H. injection H as H _. revert H. apply read_file_no_panic. discriminate.
  - exfalso. unfold lift in H. injection H as H _. revert H. apply read_file_no_panic. intros b t l _ _ _. unfold symmetric_key_line, bind.
    pose proof (from_hex32_no_panic sha512 l true). destruct (from_hex32 sha512 l true); congruence.
  - exfalso. apply bind_panic in H as [H|(c & v & _ & H)]; [exact (lift_ensure_no_panic _ _ _ _ H)|]. unfold lift in H. injection H as H _. revert H.
    apply read_file_no_panic. intros b t l _ _ _. unfold public_key_line, bind.
    pose proof (from_hex32_no_panic sha512 l sk). destruct (from_hex32 sha512 l sk); congruence.
  - exfalso. apply bind_panic in H as [H|(c & v & _ & H)]; [exact (lift_ensure_no_panic _ _ _ _ H)|]. apply bind_panic in H as [H|(c' & v' & _ & H)]; [|discriminate H].
    unfold lift in H. injection H as H _. revert H. unfold public_key_line, bind.
    pose proof (from_hex32_no_panic sha512 key sk). destruct (from_hex32 sha512 key sk); congruence.
  - exists filename. split; [reflexivity|]. apply bind_panic in H as [H|(c & v & _ & H)]; [exfalso; exact (lift_ensure_no_panic _ _ _ _ H)|].
    unfold lift in H. injection H as H _. exact H.
Qed.

Lemma wf_of top th m ts : spells top th m ts -> forall sk u u' c, stands_for sha512 files sk u (Group th m) u' c -> wf_cred c.
Proof.
  intros S sk u u' c V. inversion V; subst. constructor; try assumption; try reflexivity.
  - eapply members_positive; eassumption.
  - eapply stands_for_wf; eassumption.
Qed.

Lemma members_thresholds top th m ts : spells top th m ts -> forall sk u u' subs, members_stand_for sha512 files sk u m u' subs ->
  fold_right and True (map (fun p : N * cred => thresholds_fit (snd p)) subs).
Proof.
  assert (App : forall a b : list (N * cred), fold_right and True (map (fun p : N * cred => thresholds_fit (snd p)) a) ->
    fold_right and True (map (fun p : N * cred => thresholds_fit (snd p)) b) -> fold_right and True (map (fun p : N * cred => thresholds_fit (snd p)) (a ++ b))).
  { induction a as [|x a IH]; intros b A B; [exact B|]. cbn [app map fold_right] in *. split; [apply A|]. apply IH; [apply A|exact B]. }
  assert (Key : forall n t sk u u1 cs, read_token sha512 files Encrypt sk t u = (Ok cs, u1) -> fold_right and True (map (fun p : N * cred => thresholds_fit (snd p)) (map (fun c => (n, c)) cs))).
  { intros n t sk u u1 cs H. apply read_kinds in H. induction H as [|c cs E F IH]; [exact I|]. cbn [map fold_right snd]. split; [destruct c; try exact I; destruct E|exact IH]. }
  induction 1; intros sk u u' subs V; inversion V; subst; try exact I; try (eapply IHspells; eassumption); try (apply App; [eapply Key; eassumption|eapply IHspells; eassumption]);
    match goal with G : stands_for _ _ _ _ _ _ _ |- _ => inversion G; subst end; cbn [map fold_right snd thresholds_fit];
    (split; [split; [assumption|split; [assumption|eapply IHspells1; eassumption]]|eapply IHspells2; eassumption]).
Qed.
Lemma thresholds_of top th m ts : spells top th m ts -> forall sk u u' c, stands_for sha512 files sk u (Group th m) u' c -> thresholds_fit c.
Proof.
  intros S sk u u' c V. inversion V; subst. split; [assumption|]. split; [assumption|]. eapply members_thresholds; eassumption.
Qed.

Lemma reads_no_public force u ts u' cs t : reads sha512 files Decrypt force u ts u' cs -> In t ts -> (exists f, t = PublicKeyFile f \/ t = PublicKeyText f) -> False.
Proof.
  intros R It Ht. induction R as [|x ts u u1 u' cs cs' H1 H2 IH]; [destruct It|]. destruct It as [->|It]; [|auto].
  rewrite read_public_refused in H1 by exact Ht. discriminate H1.
Qed.

Lemma encryption_only_token x t : encryption_only (o_opt x) -> occ_token x t -> ~ key_token t \/ exists f, t = PublicKeyFile f \/ t = PublicKeyText f.
Proof. intros E T. destruct T; cbn in E; try destruct E; cbn; eauto. Qed.

Lemma forall2_in_l {A B} (R : A -> B -> Prop) l k a : Forall2 R l k -> In a l -> exists b, In b k /\ R a b.
Proof. induction 1 as [|x y l k Rxy F IH]; intros []; [subst; exists y; split; [left; reflexivity|assumption]|]. destruct IH as (b & Ib & Rb); [assumption|]. exists b. split; [right|]; assumption. Qed.

Lemma default_same ts : ts <> [] -> default_tokens ts = ts.
Proof. destruct ts; [contradiction|reflexivity]. Qed.

End WithEnvironment.

(** Decryption arguments (C37), absence of panics, and reordering of merged arguments (C48). *)
From Coq.Strings Require Import Byte String.
From Coq Require Import List NArith Bool PeanoNat Permutation Lia.
From Verif Require Import Base BaseFacts Text Util CliErrors Getopts Crypto HeaderCrypto CredSpec KeyFiles Ui CliCreds CliSpec CliProofs.
Import ListNotations.
Local Open Scope N_scope.

Section WithEnvironment.
Variable sha512 : bytes -> bytes.
Variable files : text -> option bytes.

Notation parse_loop := (parse_loop sha512 files).
Notation read_token := (read_token sha512 files).
Notation parse := (parse_complex_credential sha512 files).
Notation reads := (reads sha512 files).

Lemma wrap64_lt n : wrap64 n < two64.
Proof. unfold wrap64. apply N.mod_lt. discriminate. Qed.

(** ** Decryption *)

Lemma loop_decrypt_combinator fuel sk lvl st t ts u : ~ key_token t ->
  parse_loop (S fuel) Decrypt sk lvl st (t :: ts) u = (Err CCombinatorOnDecrypt, u).
Proof. intros K. destruct t; try (contradiction K; exact I); reflexivity. Qed.

Lemma loop_decrypt_sound fuel : forall sk st ts u c rest u',
  parse_loop fuel Decrypt sk 0 st ts u = (Ok (c, rest), u') -> p_next_key_shares st = 1 -> p_threshold st = None ->
  exists cs num, reads Decrypt sk u ts u' cs /\ Forall key_token ts /\ 0 < num /\ c = Complex (p_sub_creds st ++ map (fun c => (1, c)) cs) num 1.
Proof.
  induction fuel as [|fuel IH]; intros sk st ts u c rest u' H En Et; [discriminate H|].
  destruct ts as [|t ts].
  { rewrite loop_nil in H. apply bind_ok in H as (a & u1 & H1 & H2). apply lift_ok in H1 as [H1 ->].
    apply ret_ok in H2 as [[= <- <-] ->]. apply finish_inv in H1 as (_ & A & _ & ->). rewrite Et.
    exists [], (p_num_shares st). rewrite app_nil_r. repeat split; [constructor|constructor|exact A]. }
  assert (key_token t \/ ~ key_token t) as [K|K] by (destruct t; cbn; tauto);
    [|rewrite loop_decrypt_combinator in H by exact K; discriminate H].
  rewrite loop_key in H by exact K.
  apply bind_ok in H as (cs & u1 & H1 & H). apply bind_ok in H as (st1 & u2 & H2 & H).
  apply add_creds_ok in H2 as (_ & -> & ->).
  destruct (IH _ _ _ _ _ _ _ H eq_refl Et) as (cs' & num & R & F & L & ->).
  exists (cs ++ cs'), num. split; [econstructor; eassumption|]. split; [constructor; assumption|]. split; [exact L|].
  cbn [p_sub_creds]. rewrite En, map_app, app_assoc. reflexivity.
Qed.

Lemma reads_key d sk u ts u' cs : reads d sk u ts u' cs -> Forall key_token ts -> ts <> [] -> cs <> [].
Proof.
  intros R F N. inversion R as [|t ts' ? u1 ? cs0 cs' H1 H2]; subst; [contradiction|]. intros E.
  apply app_eq_nil in E as [-> _]. exact (read_nonempty sha512 files _ _ _ _ _ _ H1 eq_refl).
Qed.

Lemma loop_decrypt_complete sk ts u u' cs : reads Decrypt sk u ts u' cs -> Forall key_token ts -> forall st fuel,
  p_next_key_shares st = 1 -> p_threshold st = None -> p_num_shares st + lenN cs < two64 -> (length ts < fuel)%nat ->
  0 < p_num_shares st + lenN cs ->
  parse_loop fuel Decrypt sk 0 st ts u = (Ok (Complex (p_sub_creds st ++ map (fun c => (1, c)) cs) (p_num_shares st + lenN cs) 1, []), u').
Proof.
  induction 1 as [u|t ts u u1 u' cs cs' H1 H2 IH]; intros F st fuel En Et Lt Lf Lp; destruct fuel as [|fuel]; [cbn in Lf; lia| |cbn in Lf; lia|].
  - rewrite loop_nil. unfold bind_act, lift, ret. change false with (negb (0 =? 0)%nat). change (lenN (@nil cred)) with 0 in *. rewrite N.add_0_r in *.
    rewrite finish_run by (rewrite ?Et; cbn [needed]; lia). rewrite Et. rewrite app_nil_r. reflexivity.
  - inversion F as [|? ? K F']; subst. rewrite loop_key by exact K. unfold bind_act at 1. rewrite H1. unfold bind_act at 1.
    rewrite (proj2 (add_creds_ok _ _ _ _ _)) by (split; [eapply read_nonempty; exact H1|split; reflexivity]).
    rewrite En, N.mul_1_l. assert (lenN (cs ++ cs') = lenN cs + lenN cs') as El by (unfold lenN; rewrite app_length; lia).
    rewrite El in *. rewrite (wrap64_id (lenN cs)), wrap64_id by lia.
    rewrite IH; cbn [p_sub_creds p_num_shares p_next_key_shares p_threshold]; try assumption; try reflexivity; try lia.
    + rewrite map_app, app_assoc, N.add_assoc. reflexivity.
    + cbn in Lf. lia.
Qed.

Lemma decrypt_map (cs : list cred) :
  map_out (fun '(num_parts, cred) => let* _ := @assert cerr (num_parts =? 1) in Ok cred) (map (fun c => (1, c)) cs) = Ok cs.
Proof. unfold bind, assert. induction cs as [|c cs IH]; [reflexivity|]. cbn [map map_out]. unfold bind. cbn [N.eqb Pos.eqb]. cbn in IH |- *. rewrite IH. reflexivity. Qed.

Lemma reads_flat sk u ts u' cs : reads Decrypt sk u ts u' cs -> Forall flat_cred cs.
Proof.
  induction 1 as [|t ts u u1 u' cs cs' H1 H2 IH]; [constructor|]. apply Forall_app. split; [|exact IH].
  apply read_kinds in H1. eapply Forall_impl; [|exact H1]. intros [| | | |] E; cbn in *; try exact I; try discriminate E; exact E.
Qed.

Lemma read_public_refused t u : (exists f, t = PublicKeyFile f \/ t = PublicKeyText f) -> forall sk, read_token Decrypt sk t u = (Err CPublicKeyOnDecrypt, u).
Proof. intros (f & [-> | ->]) sk; reflexivity. Qed.

(** What follows the extraction of the tokens. *)
Definition decrypt_tokens (sk : bool) (ts : list token) : act (list cred) :=
  let+ c := parse Decrypt sk ts in
  match c with
  | Complex sub_creds num_shares threshold =>
      let+ _ := lift (assert (negb (num_shares =? 0))) in
      let+ _ := lift (assert (threshold =? 1)) in
      lift (map_out (fun '(num_parts, cred) => let* _ := assert (num_parts =? 1) in Ok cred) sub_creds)
  | _ => lift Panic
  end.

Lemma decrypt_parse_inv sk ts u c u' : parse Decrypt sk ts u = (Ok c, u') ->
  exists cs num, reads Decrypt sk u ts u' cs /\ Forall key_token ts /\ 0 < num /\ c = Complex (map (fun c => (1, c)) cs) num 1.
Proof.
  unfold parse_complex_credential. intros H. apply bind_ok in H as ((c0 & rest) & u1 & H & H2). apply ret_ok in H2 as [-> ->].
  exact (loop_decrypt_sound _ _ _ _ _ _ _ _ H eq_refl eq_refl).
Qed.

Lemma decrypt_tokens_after sk ts u c u' : parse Decrypt sk ts u = (Ok c, u') ->
  exists cs, reads Decrypt sk u ts u' cs /\ Forall key_token ts /\ decrypt_tokens sk ts u = (Ok cs, u').
Proof.
  intros H. destruct (decrypt_parse_inv _ _ _ _ _ H) as (cs & num & R & F & L & ->). exists cs. split; [exact R|]. split; [exact F|].
  unfold decrypt_tokens, bind_act. rewrite H. unfold lift, assert, ensure.
  rewrite (proj2 (N.eqb_neq num 0)) by lia. cbn [negb N.eqb Pos.eqb]. rewrite decrypt_map. reflexivity.
Qed.

Lemma decrypt_tokens_ok sk ts u cs u' : decrypt_tokens sk ts u = (Ok cs, u') ->
  reads Decrypt sk u ts u' cs /\ Forall key_token ts.
Proof.
  intros H. pose proof H as H0. unfold decrypt_tokens in H. apply bind_ok in H as (c & u1 & H1 & H).
  destruct (decrypt_tokens_after _ _ _ _ _ H1) as (cs' & R & F & E). rewrite H0 in E. injection E as -> ->. auto.
Qed.

Lemma decrypt_tokens_run sk ts u cs u' : reads Decrypt sk u ts u' cs -> Forall key_token ts -> ts <> [] -> lenN cs < two64 ->
  decrypt_tokens sk ts u = (Ok cs, u').
Proof.
  intros R F N L. pose proof (reads_key _ _ _ _ _ _ R F N) as Nc.
  assert (0 < lenN cs) by (destruct cs; [contradiction|]; unfold lenN; cbn [length]; lia).
  assert (parse Decrypt sk ts u = (Ok (Complex (map (fun c => (1, c)) cs) (lenN cs) 1), u')) as E.
  { unfold parse_complex_credential, bind_act. rewrite (loop_decrypt_complete _ _ _ _ _ R F initial_state); try reflexivity; [exact L|lia|assumption]. }
  destruct (decrypt_tokens_after _ _ _ _ _ E) as (cs' & R' & _ & E'). rewrite E'. f_equal. f_equal.
  unfold decrypt_tokens in E'. unfold bind_act in E'. rewrite E in E'. unfold lift, assert, ensure in E'.
  rewrite (proj2 (N.eqb_neq (lenN cs) 0)) in E' by lia. cbn [negb N.eqb Pos.eqb] in E'. rewrite decrypt_map in E'. injection E' as E'. auto.
Qed.

(** ** Panics *)

Lemma lift_ensure_no_panic c e u u' : ensure_act c e u <> (Panic, u').
Proof. unfold ensure_act, lift, ensure. destruct c; discriminate. Qed.
Lemma finish_no_panic lvl eg st : finish_group lvl eg st <> Panic.
Proof.
  unfold finish_group, ensure, bind.
  destruct (negb ((lvl =? 0)%nat && eg)); [|discriminate].
  destruct (negb (negb (lvl =? 0)%nat && negb eg)); [|discriminate].
  destruct (0 <? p_num_shares st); [|discriminate].
  destruct (0 <? _); [|discriminate]. destruct (_ <=? _); discriminate.
Qed.

Lemma loop_rest fuel : forall d sk lvl st ts u c rest u',
  parse_loop fuel d sk lvl st ts u = (Ok (c, rest), u') -> exists used, ts = used ++ rest.
Proof.
  induction fuel as [|fuel IH]; intros d sk lvl st ts u c rest u' H; [discriminate H|].
  destruct ts as [|t ts]; cbn [CliCreds.parse_loop] in H.
  { apply bind_ok in H as (a & u1 & _ & H). apply ret_ok in H as [[= _ <-] _]. exists []. reflexivity. }
  apply bind_ok in H as (a & u1 & _ & H). apply bind_ok in H as (a' & u2 & _ & H).
  assert (forall v st' ts', parse_loop fuel d sk lvl st' ts' v = (Ok (c, rest), u') -> (exists used, ts = used ++ ts') -> exists used, t :: ts = used ++ rest) as K.
  { intros v st' ts' E (used & ->). apply IH in E as (used' & ->). exists (t :: used ++ used'). rewrite app_comm_cons, app_assoc. reflexivity. }
  assert (exists used, ts = used ++ ts) as Id by (exists []; reflexivity).
  destruct t;
    try (apply bind_ok in H as (b & u3 & H1 & H));
    try (apply bind_ok in H as (b' & u4 & H2 & H)); try (eapply K; eassumption).
  - destruct b as [sub ts2]. apply bind_ok in H as (b' & u4 & H2 & H). eapply K; [exact H|]. eapply IH; exact H1.
  - apply ret_ok in H as [[= _ <-] _]. exists [EndGroup]. reflexivity.
Qed.

Lemma bind_panic {A B} (m : act A) (f : A -> act B) u u' : bind_act m f u = (Panic, u') ->
  m u = (Panic, u') \/ exists a u1, m u = (Ok a, u1) /\ f a u1 = (Panic, u').
Proof.
  unfold bind_act. destruct (m u) as [[a|e|] u1]; intros H; [right; eauto|discriminate H|left; injection H as ->; reflexivity].
Qed.
Lemma add_creds_no_panic st cs u u' : add_creds st cs u <> (Panic, u').
Proof. unfold add_creds. intros H. apply bind_panic in H as [H|(a & u1 & _ & H)]; [exact (lift_ensure_no_panic _ _ _ _ H)|discriminate H]. Qed.

(** The loop panics only if reading a key does: in particular the fuel is sufficient. *)
Lemma parse_loop_fuel fuel : forall d sk lvl st ts u u', (length ts < fuel)%nat ->
  parse_loop fuel d sk lvl st ts u = (Panic, u') ->
  exists t u1 u2, In t ts /\ key_token t /\ read_token d sk t u1 = (Panic, u2).
Proof.
  induction fuel as [|fuel IH]; intros d sk lvl st ts u u' L H; [lia|].
  destruct ts as [|t ts]; cbn [CliCreds.parse_loop length] in H, L.
  { apply bind_panic in H as [H|(a & u1 & _ & H)]; [|discriminate H]. unfold lift in H. injection H as H _.
    exfalso. exact (finish_no_panic _ _ _ H). }
  apply bind_panic in H as [H|(a & u1 & _ & H)]; [exfalso; exact (lift_ensure_no_panic _ _ _ _ H)|].
  apply bind_panic in H as [H|(a' & u2 & _ & H)]; [exfalso; exact (lift_ensure_no_panic _ _ _ _ H)|].
  assert (forall v st' ts', parse_loop fuel d sk lvl st' ts' v = (Panic, u') -> (exists used, ts = used ++ ts') ->
    exists t0 u1 u2, In t0 (t :: ts) /\ key_token t0 /\ read_token d sk t0 u1 = (Panic, u2)) as K.
  { intros v st' ts' E (used & Eu). apply IH in E as (t0 & v1 & v2 & I0 & P0); [|rewrite Eu, app_length in L; lia].
    exists t0, v1, v2. split; [|exact P0]. right. rewrite Eu. apply in_or_app. right. exact I0. }
  assert (exists used, ts = used ++ ts) as Id by (exists []; reflexivity).
  assert (Kr : key_token t -> forall v v', bind_act (read_token d sk t) (fun creds => let+ st := add_creds st creds in parse_loop fuel d sk lvl st ts) v = (Panic, v') -> v' = u' ->
    exists t0 u1 u2, In t0 (t :: ts) /\ key_token t0 /\ read_token d sk t0 u1 = (Panic, u2)).
  { intros Kt v v' E ->. apply bind_panic in E as [E|(cs & v1 & _ & E)]; [exists t, v, u'; split; [left; reflexivity|]; auto|].
    apply bind_panic in E as [E|(st1 & v2 & _ & E)]; [exfalso; exact (add_creds_no_panic _ _ _ _ E)|]. eapply K; eassumption. }
  destruct t; try (exact (Kr I _ _ H eq_refl));
    try (apply bind_panic in H as [H|(b & v & _ & H)]; [exfalso; exact (lift_ensure_no_panic _ _ _ _ H)|eapply K; eassumption]).
  - apply bind_panic in H as [H|((sub & ts2) & v & H1 & H)].
    + apply IH in H as (t0 & v1 & v2 & I0 & P0); [|lia]. exists t0, v1, v2. split; [right; exact I0|exact P0].
    + apply bind_panic in H as [H|(st1 & v2 & _ & H)]; [exfalso; exact (add_creds_no_panic _ _ _ _ H)|]. eapply K; [exact H|]. eapply loop_rest; exact H1.
  - apply bind_panic in H as [H|(b & v & _ & H)]; [|discriminate H]. unfold lift in H. injection H as H _. exfalso. exact (finish_no_panic _ _ _ H).
Qed.

Lemma parse_panic d sk ts u u' : parse d sk ts u = (Panic, u') -> exists t u1 u2, In t ts /\ key_token t /\ read_token d sk t u1 = (Panic, u2).
Proof.
  unfold parse_complex_credential. intros H. apply bind_panic in H as [H|((c & rest) & u1 & _ & H)]; [|discriminate H].
  eapply parse_loop_fuel; [|exact H]. lia.
Qed.
Lemma decrypt_panic sk ts u u' : decrypt_tokens sk ts u = (Panic, u') -> exists t u1 u2, In t ts /\ key_token t /\ read_token Decrypt sk t u1 = (Panic, u2).
Proof.
  intros H. pose proof H as H0. unfold decrypt_tokens in H. apply bind_panic in H as [H|(c & u1 & H & _)]; [eapply parse_panic; exact H|].
  destruct (decrypt_tokens_after _ _ _ _ _ H) as (cs & _ & _ & E). rewrite H0 in E. discriminate E.
Qed.

(** ** Merged arguments *)

(** Without keys nothing is accepted. *)
Lemma no_keys fuel : forall d sk lvl st ts u r u', p_num_shares st = 0 -> Forall (fun t => ~ key_token t) ts ->
  parse_loop fuel d sk lvl st ts u <> (Ok r, u').
Proof.
  induction fuel as [|fuel IH]; intros d sk lvl st ts u [c rest] u' E0 F H; [discriminate H|].
  destruct ts as [|t ts]; cbn [CliCreds.parse_loop] in H.
  { apply bind_ok in H as (a & u1 & H1 & _). apply lift_ok in H1 as [H1 _]. apply finish_inv in H1 as (_ & A & _). lia. }
  inversion F as [|? ? Kt F']; subst.
  apply bind_ok in H as (a & u1 & _ & H). apply bind_ok in H as (a' & u2 & _ & H).
  destruct t; try (contradiction Kt; exact I); apply bind_ok in H as (b & u3 & H1 & H);
    try (revert H; apply IH; assumption).
  - revert H1. apply IH; [reflexivity|assumption].
  - apply lift_ok in H1 as [H1 _]. apply finish_inv in H1 as (_ & A & _). lia.
Qed.

Definition is_threshold (t : token) : Prop := match t with KeyThreshold _ | RequireAllKeys => True | _ => False end.
Lemma is_threshold_of t : is_threshold t -> exists th, threshold_of t = Some th.
Proof. destruct t; intros []; cbn; eauto. Qed.

(** A threshold may move behind a key. *)
Lemma swap_threshold fuel sk lvl st t k ts u r u' : is_threshold t -> key_token k ->
  parse_loop (S (S fuel)) Encrypt sk lvl st (k :: t :: ts) u = (Ok r, u') -> p_next_key_shares st = 1 ->
  parse_loop (S (S fuel)) Encrypt sk lvl st (t :: k :: ts) u = (Ok r, u').
Proof.
  intros T K H En. destruct (is_threshold_of t T) as (th & Eth).
  rewrite loop_key in H by exact K. apply bind_ok in H as (cs & u1 & H1 & H). apply bind_ok in H as (st1 & u2 & H2 & H).
  pose proof H2 as H3. apply add_creds_ok in H2 as (Nc & -> & ->).
  rewrite (loop_threshold _ _ _ _ _ _ _ _ th _ Eth) in H. cbn [p_next_key_shares p_threshold N.eqb Pos.eqb] in H. rewrite ensure_true in H.
  apply bind_ok in H as (b & u3 & H4 & H). apply ensure_ok in H4 as (E4 & _ & ->).
  rewrite (loop_threshold _ _ _ _ _ _ _ _ th _ Eth), En. cbn [N.eqb Pos.eqb]. rewrite ensure_true, E4, ensure_true, loop_key by exact K.
  unfold bind_act at 1. rewrite H1. unfold bind_act at 1.
  rewrite (proj2 (add_creds_ok _ _ _ _ _)) by (split; [exact Nc|split; reflexivity]). exact H.
Qed.

Lemma repeat_snoc {A} (x : A) n : repeat x (S n) = repeat x n ++ [x].
Proof. induction n as [|n IH]; [reflexivity|]. cbn [repeat app] in *. f_equal. exact IH. Qed.

Lemma prefix_step fuel sk st ts ts' i : (forall st u r u', p_next_key_shares st = 1 -> parse_loop fuel Encrypt sk 0 st ts u = (Ok r, u') -> parse_loop fuel Encrypt sk 0 st ts' u = (Ok r, u')) ->
  forall u r u', p_next_key_shares st = 1 ->
  parse_loop (i + fuel) Encrypt sk 0 st (repeat InteractivePassword i ++ ts) u = (Ok r, u') ->
  parse_loop (i + fuel) Encrypt sk 0 st (repeat InteractivePassword i ++ ts') u = (Ok r, u').
Proof.
  intros Hs. revert st. induction i as [|i IH]; intros st u r u' En H; [apply Hs; assumption|].
  cbn [repeat app plus] in *. rewrite loop_key in H by exact I. rewrite loop_key by exact I.
  apply bind_ok in H as (cs & u1 & H1 & H). apply bind_ok in H as (st1 & u2 & H2 & H).
  unfold bind_act at 1. rewrite H1. unfold bind_act at 1. rewrite H2. apply IH; [|exact H].
  apply add_creds_ok in H2 as (_ & _ & ->). reflexivity.
Qed.

(** The threshold may stand anywhere among passwords. *)
Lemma bubble sk t j : is_threshold t -> forall i k u r u',
  parse_loop (S (i + j + S k)) Encrypt sk 0 initial_state (repeat InteractivePassword (i + j) ++ [t]) u = (Ok r, u') ->
  parse_loop (S (i + j + S k)) Encrypt sk 0 initial_state (repeat InteractivePassword i ++ t :: repeat InteractivePassword j) u = (Ok r, u').
Proof.
  intros T. induction j as [|j IH]; intros i k u r u' H; [rewrite Nat.add_0_r in H |- *; exact H|].
  replace (S (i + S j + S k)) with (S (S i + j + S k)) in * by lia. replace (i + S j)%nat with (S i + j)%nat in H by lia. apply IH in H.
  rewrite repeat_snoc, <- app_assoc in H. cbn [app] in H. cbn [repeat].
  replace (S (S i + j + S k)) with (i + (S (S (j + S k))))%nat in * by lia.
  eapply prefix_step; [|reflexivity|exact H]. intros st v r0 v' En E. apply swap_threshold; assumption || exact I.
Qed.

Lemma ends_not_ok fuel d sk st ts u r u' : parse_loop fuel d sk 0 st (EndGroup :: ts) u <> (Ok r, u').
Proof.
  destruct fuel as [|fuel]; [discriminate|]. cbn [CliCreds.parse_loop]. intros H.
  apply bind_ok in H as (a & u1 & _ & H). apply bind_ok in H as (a' & u2 & _ & H). apply bind_ok in H as (b & u3 & H1 & _).
  apply lift_ok in H1 as [H1 _]. apply finish_inv in H1 as (E & _). discriminate E.
Qed.

Lemma after_passwords fuel d sk i : forall st ts u r u', p_next_key_shares st = 1 -> p_threshold st = None ->
  parse_loop fuel d sk 0 st (repeat InteractivePassword i ++ ts) u = (Ok r, u') ->
  exists fuel' st' u1, p_next_key_shares st' = 1 /\ p_threshold st' = None /\ parse_loop fuel' d sk 0 st' ts u1 = (Ok r, u').
Proof.
  revert fuel. induction i as [|i IH]; intros fuel st ts u r u' En Et H; [eauto 6|].
  cbn [repeat app] in H. destruct fuel as [|fuel]; [discriminate H|]. rewrite loop_key in H by exact I.
  apply bind_ok in H as (cs & u1 & H1 & H). apply bind_ok in H as (st1 & u2 & H2 & H). apply add_creds_ok in H2 as (_ & -> & ->).
  eapply IH; [| |exact H]; [reflexivity|exact Et].
Qed.

Lemma merged_shape d sk i k j ths u c u' : Forall is_threshold ths ->
  parse d sk (repeat InteractivePassword i ++ repeat StartGroup k ++ repeat EndGroup j ++ ths) u = (Ok c, u') ->
  k = 0%nat /\ j = 0%nat /\ (ths = [] \/ d = Encrypt /\ exists t, ths = [t] /\ is_threshold t).
Proof.
  unfold parse_complex_credential. intros F H. apply bind_ok in H as (r & u1 & H & _).
  apply after_passwords in H as (fuel & st & u0 & En & Et & H); [|reflexivity|reflexivity].
  assert (Forall (fun t => ~ key_token t) ths) as Fk by (eapply Forall_impl; [|exact F]; intros []; cbn; tauto).
  assert (Forall (fun t => ~ key_token t) (repeat EndGroup j)) as Fe by (apply Forall_forall; intros x Ix; apply repeat_spec in Ix as ->; cbn; tauto).
  assert (Forall (fun t => ~ key_token t) (repeat StartGroup (pred k))) as Fs by (apply Forall_forall; intros x Ix; apply repeat_spec in Ix as ->; cbn; tauto).
  destruct fuel as [|fuel]; [discriminate H|].
  destruct k as [|k].
  2:{ exfalso. cbn [repeat app] in H. destruct d; [|rewrite loop_decrypt_combinator in H by (cbn; tauto); discriminate H].
      rewrite loop_start in H. apply bind_ok in H as (a & u2 & H1 & _). revert H1. apply no_keys; [reflexivity|].
      apply Forall_app. split; [exact Fs|]. apply Forall_app. split; [exact Fe|exact Fk]. }
  split; [reflexivity|]. cbn [repeat app] in H. destruct j as [|j]; [|exfalso; exact (ends_not_ok _ _ _ _ _ _ _ _ H)].
  split; [reflexivity|]. cbn [repeat app] in H. destruct ths as [|t ths]; [left; reflexivity|right].
  inversion F as [|? ? T F']; subst. inversion Fk; subst.
  destruct d; [|rewrite loop_decrypt_combinator in H by assumption; discriminate H]. split; [reflexivity|].
  exists t. split; [|exact T]. destruct (is_threshold_of t T) as (th & Eth). rewrite (loop_threshold _ _ _ _ _ _ _ _ _ _ Eth) in H.
  apply bind_ok in H as (b & u2 & _ & H). apply bind_ok in H as (b' & u3 & _ & H).
  destruct ths as [|t2 ths]; [reflexivity|exfalso]. inversion F' as [|? ? T2 _]; subst. destruct (is_threshold_of t2 T2) as (th2 & Eth2).
  destruct fuel as [|fuel]; [discriminate H|]. rewrite (loop_threshold _ _ _ _ _ _ _ _ _ _ Eth2) in H.
  apply bind_ok in H as (e & u4 & _ & H). apply bind_ok in H as (e' & u5 & H9 & _). apply ensure_ok in H9 as (E & _). discriminate E.
Qed.

Lemma permutation_repeat {A} (x : A) n l : Permutation (repeat x n) l -> l = repeat x n.
Proof.
  intros P. pose proof (Permutation_length P) as L. rewrite repeat_length in L. subst n.
  assert (Forall (eq x) l) as F by (apply Forall_forall; intros y Iy; symmetry; eapply repeat_spec, Permutation_in; [apply Permutation_sym; exact P|exact Iy]).
  clear P. induction F as [|y l <- F IH]; [reflexivity|]. cbn. f_equal. exact IH.
Qed.

Lemma permutation_repeat_one {A} (x t : A) n l : Permutation (repeat x n ++ [t]) l -> exists i j, (i + j = n)%nat /\ l = repeat x i ++ t :: repeat x j.
Proof.
  intros P. assert (In t l) as It by (eapply Permutation_in; [exact P|apply in_or_app; right; left; reflexivity]).
  apply in_split in It as (a & b & ->). apply Permutation_app_inv in P. rewrite app_nil_r in P. apply permutation_repeat in P.
  assert (Forall (eq x) (a ++ b)) as F by (rewrite P; apply Forall_forall; intros y Iy; symmetry; eapply repeat_spec; exact Iy).
  apply Forall_app in F as [Fa Fb]. apply (f_equal (@length A)) in P. rewrite app_length, repeat_length in P.
  assert (forall l, Forall (eq x) l -> l = repeat x (length l)) as R.
  { induction 1 as [|y l' <- _ IH]; [reflexivity|]. cbn. f_equal. exact IH. }
  exists (length a), (length b). split; [exact P|]. rewrite <- R, <- R by assumption. reflexivity.
Qed.

Lemma merged_parse d sk i k j ths ordered u c u' : Forall is_threshold ths ->
  Permutation (repeat InteractivePassword i ++ repeat StartGroup k ++ repeat EndGroup j ++ ths) ordered ->
  parse d sk (repeat InteractivePassword i ++ repeat StartGroup k ++ repeat EndGroup j ++ ths) u = (Ok c, u') ->
  parse d sk ordered u = (Ok c, u').
Proof.
  intros F P H. pose proof H as H0. apply merged_shape in H as (-> & -> & [->|(-> & t & -> & T)]); [| |exact F]; cbn [repeat app] in *.
  - rewrite app_nil_r in *. apply permutation_repeat in P as ->. exact H0.
  - apply permutation_repeat_one in P as (a & b & <- & ->). unfold parse_complex_credential in *.
    apply bind_ok in H0 as (r & u1 & H & H2). unfold bind_act.
    rewrite app_length, repeat_length in H. cbn [length] in H.
    replace (S (length (repeat InteractivePassword a ++ t :: repeat InteractivePassword b))) with (S (a + b + 1)) by (rewrite app_length; cbn [length]; rewrite !repeat_length; lia).
    rewrite (bubble _ _ _ T a 0%nat _ _ _ H). exact H2.
Qed.

End WithEnvironment.

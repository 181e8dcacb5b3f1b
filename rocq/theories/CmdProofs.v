(** Proofs about what an accepted command line asks for (C69). *)
From Coq.Strings Require Import Byte String.
From Coq Require Import List NArith ZArith Bool PeanoNat Lia.
From Verif Require Import Base BaseFacts Text Util CliErrors Getopts Crypto HeaderCrypto KeyFiles Ui CliCreds CliSpec CliProofs CliProofs2 CliProofs3 CliProofs4 Paths Cli PathSpec PathProofs SettingsProofs OptSpec OptProofs CmdSpec.
Import ListNotations.
Local Open Scope N_scope.

Lemma means_is args occs free m : means 0 args occs free -> parse_options args = Ok m -> m = mkMatches occs free.
Proof. intros R P. apply options_read in P as [P _]. apply reads_parse in R, P. rewrite P in R. injection R as <- <-. destruct m; reflexivity. Qed.

Lemma present_iff occs free o : opt_present (mkMatches occs free) o = true <-> given o occs.
Proof.
  unfold opt_present, occs_of. cbn [m_occs]. split.
  - destruct (filter _ occs) as [|x l] eqn:E; [discriminate|]. intros _. assert (I : In x (x :: l)) by (left; reflexivity). rewrite <- E in I.
    apply filter_In in I as [I K]. exists x. split; [exact I|]. unfold opt_eqb in K. destruct (opt_eq_dec (o_opt x) o); [assumption|discriminate K].
  - intros (x & I & E). destruct (filter _ occs) as [|y l] eqn:F; [|reflexivity]. assert (K : In x []) by (rewrite <- F; apply filter_In; split; [exact I|unfold opt_eqb; destruct (opt_eq_dec (o_opt x) o); [reflexivity|contradiction]]). destruct K.
Qed.
Lemma present_false occs free o : opt_present (mkMatches occs free) o = false <-> ~ given o occs.
Proof. rewrite <- (present_iff occs free). destruct (opt_present _ o); intuition congruence. Qed.

Lemma item_valued pos args o f : item pos args o f -> Forall (fun x => takes_value (o_opt x) -> o_val x <> None) o.
Proof.
  intros I. assert (K : forall os letters, flags os letters -> Forall (fun x => takes_value (o_opt x) -> o_val x <> None) (map (fun o => mkOcc pos o None) os)).
  { induction 1 as [|x c os cs [_ V] _ IH]; constructor; [contradiction|exact IH]. }
  destruct I; try (constructor; [|constructor]; cbn; (contradiction || discriminate)); try constructor; [eapply K; eassumption|..];
    (apply Forall_app; split; [eapply K; eassumption|constructor; [discriminate|constructor]]).
Qed.
Lemma means_valued pos args occs free : means pos args occs free -> Forall (fun x => takes_value (o_opt x) -> o_val x <> None) occs.
Proof. induction 1 as [| |pos args o f rest occs free I R IH]; [constructor..|]. apply Forall_app. split; [eapply item_valued, I|exact IH]. Qed.

Lemma suffix_ok args occs free : means 0 args occs free -> suffix occs (get_encrypted_file_extension (mkMatches occs free)).
Proof.
  intros R. pose proof (means_valued _ _ _ _ R) as V. unfold get_encrypted_file_extension, opt_str, opt_strs_pos.
  destruct (flat_map _ _) as [|[p v] l] eqn:E.
  - left. split; [|reflexivity]. intros (x & I & Eo). rewrite Forall_forall in V. specialize (V x I). rewrite Eo in V. specialize (V Logic.I).
    destruct (o_val x) as [v|] eqn:Ev; [|contradiction]. assert (K : In (o_pos x, v) []); [|destruct K].
    rewrite <- E. apply in_flat_map. exists x. split; [|rewrite Ev; left; reflexivity]. apply filter_In. split; [exact I|]. unfold opt_eqb. rewrite Eo. destruct (opt_eq_dec OSuffix OSuffix); [reflexivity|contradiction].
  - assert (G : given_value OSuffix v occs).
    { assert (I : In (p, v) ((p, v) :: l)) by (left; reflexivity). rewrite <- E in I. apply in_flat_map in I as (x & I & K). apply filter_In in I as [I O].
      exists x. split; [exact I|]. unfold opt_eqb in O. destruct (opt_eq_dec (o_opt x) OSuffix); [|discriminate O]. split; [assumption|]. destruct (o_val x); [|destruct K]. destruct K as [[= _ <-]|[]]. reflexivity. }
    right. destruct v as [|c v]; [right; split; [exact G|intros s'; discriminate]|]. destruct (N.eq_dec c 46) as [->|D]; [left; exact G|].
    right. assert (X : match c :: v with 46 :: e => e | _ => c :: v end = c :: v).
    { destruct c as [|c]; [reflexivity|]. repeat (destruct c as [c|c|]; try reflexivity). contradiction. }
    change (match Some (c :: v) with None => lit "rypt" | Some (46 :: e) => e | Some e0 => e0 end) with (match c :: v with 46 :: e => e | _ => c :: v end).
    rewrite X. split; [exact G|]. intros s' [= K _]. contradiction.
Qed.

Lemma sources_ok occs free d force streams : get_input_output_streams (mkMatches occs free) d force = Ok streams -> sources occs free streams.
Proof.
  intros H. unfold get_input_output_streams in H. cbn [m_free] in H.
  destruct (opt_present (mkMatches occs free) OStream || _) eqn:E.
  - left. split.
    + apply orb_true_iff in E as [E|E]; [left; eapply present_iff, E|]. right. destruct free as [|a [|b l]]; [left; reflexivity| |discriminate E]. right. apply text_eqb_true in E as ->. reflexivity.
    + destruct free as [|a [|b l]]; [|destruct (text_eqb a dash) eqn:Ea|discriminate H]; injection H as <-; eexists; (split; [reflexivity|]).
      * left. auto.
      * left. apply text_eqb_true in Ea as ->. auto.
      * right. exists a. split; [reflexivity|]. split; [|reflexivity]. intros ->. discriminate Ea.
  - right. apply orb_false_iff in E as [E1 E2]. apply present_false in E1. split.
    + intros [G|[->| ->]]; [contradiction|discriminate E2|discriminate E2].
    + unfold bind at 1, ensure in H. destruct (existsb _ free) eqn:Ex; [discriminate H|]. cbn [negb] in H. injection H as <-. split.
      * intros I. assert (X : existsb (fun a => text_eqb (trim a) dash) free = true) by (apply existsb_exists; exists (lit "-"); split; [exact I|vm_compute; reflexivity]). congruence.
      * clear. induction free as [|a free IH]; [constructor|]. cbn [map]. constructor; [|exact IH]. cbn [s_input s_output]. split; [reflexivity|].
        intros q Hq. unfold bind in Hq. destruct (match d with Encrypt => _ | Decrypt => _ end); try discriminate Hq. injection Hq as <-. eauto.
Qed.

Lemma public_ok a d n : is_file (components a) d n -> exists n', public_name n n' /\ is_file (with_extension (components a) (lit "pub")) d n'.
Proof.
  intros F. pose proof (path_ok_name _ _ _ (components_ok a) F) as (O1 & O2 & O3 & O4). unfold with_extension. rewrite (proj2 (file_name_iff _ _ _) F).
  destruct (stem_cases n) as [[-> Nd]|(b & e & Nb & Ne & -> & ->)]; cbn [fst].
  - exists (n ++ lit ".pub"). split; [right; auto|]. apply push_name. repeat split.
    + destruct n; [contradiction|discriminate].
    + intros X. apply (f_equal (@length N)) in X. rewrite app_length in X. cbn in X. lia.
    + intros X. apply (f_equal (@length N)) in X. rewrite app_length in X. cbn in X. lia.
    + intros X. apply in_app_or in X as [X|X]; [contradiction|]. vm_compute in X. intuition discriminate.
  - exists (b ++ lit ".pub"). split; [left; exists b, e; auto|]. apply push_name. repeat split.
    + destruct b; [contradiction|discriminate].
    + intros X. apply (f_equal (@length N)) in X. rewrite app_length in X. cbn in X. lia.
    + intros X. apply (f_equal (@length N)) in X. rewrite app_length in X. cbn in X. lia.
    + intros X. apply in_app_or in X as [X|X]; [apply O4, in_or_app; auto|]. vm_compute in X. intuition discriminate.
Qed.
Lemma keypairs_ok l : forall taken ks, keypair_streams taken l = Ok ks ->
  Forall2 key_pair l ks /\ (count_occ (list_eq_dec N.eq_dec) l (lit "-") <= if taken then 0 else 1)%nat.
Proof.
  induction l as [|a l IH]; intros taken ks H; cbn [keypair_streams] in H; [injection H as <-; split; [constructor|cbn; lia]|].
  destruct (text_eqb a dash) eqn:Ea.
  - apply text_eqb_true in Ea. change dash with (lit "-") in Ea. subst a. destruct taken; [discriminate H|]. cbn [negb ensure bind] in H.
    destruct (keypair_streams true l) as [ks'| |] eqn:E; try discriminate H. injection H as <-. destruct (IH _ _ E) as [F C]. split; [constructor; [left; auto|exact F]|].
    rewrite count_occ_cons_eq by reflexivity. lia.
  - assert (Na : a <> lit "-") by (intros ->; discriminate Ea). destruct (keypair_streams taken l) as [ks'| |] eqn:E; try discriminate H. injection H as <-. destruct (IH _ _ E) as [F C].
    split; [|rewrite count_occ_cons_neq by exact Na; exact C]. constructor; [|exact F]. right. split; [exact Na|]. eexists. split; [reflexivity|]. intros d n. apply public_ok.
Qed.

Section WithEnvironment.
Variable sha512 : bytes -> bytes.
Variable files : text -> option bytes.

Lemma no_keys occs free : (forall o, key_option o -> ~ given o occs) -> credential_occs (mkMatches occs free) = [].
Proof.
  intros H. unfold credential_occs. cbn [m_occs]. destruct (filter _ occs) as [|x l] eqn:E; [reflexivity|]. exfalso.
  assert (I : In x (x :: l)) by (left; reflexivity). rewrite <- E in I. apply filter_In in I as [I K].
  apply (H (o_opt x)); [|exists x; auto]. unfold key_option. destruct (o_opt x); cbn in K; try discriminate K; cbn; tauto.
Qed.
Lemma prompt_encrypt args occs free force u c u' : parse_options args = Ok (mkMatches occs free) -> (forall o, key_option o -> ~ given o occs) ->
  get_encrypt_credential sha512 files (mkMatches occs free) force u = (Ok c, u') ->
  exists p, read_password_interactively Encrypt None u = (Ok p, u') /\ c = Complex [(1, p)] 1 1.
Proof.
  intros P N H. destruct (get_encrypt_inv _ _ _ _ _ _ _ _ P H) as (ts & F & Hp). rewrite (no_keys _ _ N) in F. inversion F; subst ts.
  cbn [default_tokens] in Hp. unfold parse_complex_credential in Hp. apply CliProofs.bind_ok in Hp as ([c' rest] & u1 & Hp & Hr). injection Hr as <- <-.
  cbn -[read_password_interactively] in Hp. unfold bind_act, ensure_act, lift, ret in Hp. cbn -[read_password_interactively] in Hp.
  destruct (read_password_interactively Encrypt None u) as [[p| |] u2] eqn:E; cbn in Hp; try discriminate Hp. injection Hp as <- <- <-. exists p. auto.
Qed.
Lemma prompt_decrypt args occs free force u cs u' : parse_options args = Ok (mkMatches occs free) -> (forall o, key_option o -> ~ given o occs) ->
  get_decrypt_credentials sha512 files (mkMatches occs free) force u = (Ok cs, u') ->
  exists p, read_password_interactively Decrypt None u = (Ok p, u') /\ cs = [p].
Proof.
  intros P N H. destruct (get_decrypt_inv _ _ _ _ _ _ _ _ P H) as (ts & F & Hp). rewrite (no_keys _ _ N) in F. inversion F; subst ts.
  cbn [default_tokens] in Hp. destruct (decrypt_tokens_ok _ _ _ _ _ _ _ Hp) as [R _].
  inversion R as [|t ts v u1 v' cs1 cs2 Ht R2]; subst. inversion R2; subst. cbn [read_token] in Ht. apply CliProofs.bind_ok in Ht as (p & u2 & Ht & Hr). injection Hr as <- <-.
  exists p. split; [exact Ht|reflexivity].
Qed.
Lemma line_command args tin tout terr u c u' : parse_command_line sha512 files args tin tout terr u = (Ok c, u') ->
  exists m, parse_options args = Ok m /\
    (-2 <= Z.of_N (opt_count m OVerbose) - Z.of_N (opt_count m OQuiet) <= 2)%Z /\
    (forall s p f d, c = CryptStreams s p f d -> ~ (opt_present m OKeepInputs = true /\ opt_present m ODiscardInputs = true)) /\
    (forall s p f cr fast, c = CryptStreams s p f (DoEncrypt cr fast) -> fast = opt_present m OFast) /\
    (forall ks f, c = GenerateKeyPair ks f -> get_keypair_streams m = Ok ks /\ f = opt_present m OForce).
Proof.
  intros H. unfold parse_command_line in H. apply CliProofs.bind_ok in H as (m & u0 & H0 & H). apply lift_ok in H0 as [H0 ->].
  apply CliProofs.bind_ok in H as (x & u0 & H1 & H). apply CliProofs.ensure_ok in H1 as (V & _ & ->).
  apply CliProofs.bind_ok in H as (x' & u1 & _ & H). exists m. split; [exact H0|].
  split. { apply andb_prop in V as [V1 V2]. apply Z.leb_le in V1, V2. lia. }
  destruct (if match args with [] => true | _ => false end && tout then MHelp else get_mode m) as [d| | |].
  - apply CliProofs.bind_ok in H as (streams & u2 & _ & H). apply CliProofs.bind_ok in H as ([] & u3 & _ & H).
    apply CliProofs.bind_ok in H as (policy & u4 & H4 & H). apply CliProofs.bind_ok in H as (dir & u5 & H5 & H). apply ret_ok in H as [<- _].
    split; [|split].
    + intros s p f d0 _ [K D]. rewrite K, D in H4. discriminate H4.
    + intros s p f cr fast [= _ _ _ ->]. destruct d; apply CliProofs.bind_ok in H5 as (y & u6 & _ & H5); apply ret_ok in H5 as [H5 _]; [injection H5 as _ <-; reflexivity|discriminate H5].
    + discriminate.
  - apply CliProofs.bind_ok in H as (ks & u2 & H2 & H). apply lift_ok in H2 as [H2 _]. apply ret_ok in H as [<- _]. split; [discriminate|]. split; [discriminate|]. intros ks' f [= <- <-]. auto.
  - apply ret_ok in H as [<- _]. repeat split; discriminate.
  - apply ret_ok in H as [<- _]. repeat split; discriminate.
Qed.
End WithEnvironment.

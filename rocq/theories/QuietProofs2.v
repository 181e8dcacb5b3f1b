(** Proofs about how much appears on the terminal (C75): reading the command line. *)
From Coq.Strings Require Import Byte String.
From Coq Require Import List NArith ZArith Bool Permutation Lia.
From Verif Require Import Base BaseFacts Text Util CliErrors Getopts Crypto HeaderCrypto KeyFiles Io FileCrypto Ui UiSpec UiProofs2 CliCreds CliSpec CliProofs CliProofs3 Paths Cli Fs Commands PathSpec PathProofs OptSpec OptProofs CmdProofs CmdSpec ShowSpec ShowProofs ShowProofs2 FlowProofs QuietSpec QuietProofs.
Import ListNotations.
Local Open Scope N_scope.

(** ** Reading the command line does not fail for several reasons *)
Definition single {A} (x : outcome cerr A) : Prop := x <> Err CComposite.
Definition plain {A} (m : act A) : Prop := forall u, single (fst (m u)).
Lemma single_bind {A B} (x : outcome cerr A) (f : A -> outcome cerr B) : single x -> (forall a, single (f a)) -> single (let* a := x in f a).
Proof. intros H Hf. destruct x as [a|e|]; cbn [bind]; [apply Hf|intros [= ->]; apply H; reflexivity|discriminate]. Qed.
Lemma single_ensure c e : e <> CComposite -> single (ensure c e).
Proof. intros H. unfold ensure. destruct c; [discriminate|]. intros [= ->]. contradiction. Qed.
Lemma single_map {A B} (f : A -> outcome cerr B) l : (forall x, single (f x)) -> single (map_out f l).
Proof. intros H E. apply map_out_error in E as (x & E). exact (H x E). Qed.
Lemma single_assert b : single (assert b : outcome cerr unit).
Proof. destruct b; discriminate. Qed.
Lemma single_ok {A} (a : A) : single (Ok a).
Proof. discriminate. Qed.
Lemma plain_lift {A} (x : outcome cerr A) : single x -> plain (lift x).
Proof. intros H u. exact H. Qed.
Lemma plain_ret {A} (a : A) : plain (ret a).
Proof. intros u. discriminate. Qed.
Lemma plain_bind {A B} (m : act A) (f : A -> act B) : plain m -> (forall a, plain (f a)) -> plain (bind_act m f).
Proof.
  intros Hm Hf u. unfold bind_act. specialize (Hm u). destruct (m u) as [[a|e|] u1]; cbn [fst] in *; [apply Hf|intros [= ->]; apply Hm; reflexivity|discriminate].
Qed.
Lemma plain_ensure c e : e <> CComposite -> plain (ensure_act c e).
Proof. intros H. apply plain_lift, single_ensure, H. Qed.
Lemma plain_emit m : plain (emit m).
Proof. intros u. unfold emit. destruct (u_room u) as [[|n]|]; discriminate. Qed.
Lemma plain_interactive t : plain (println_interactive t).
Proof. intros u. unfold println_interactive. destruct (will_print u _); [apply plain_emit|discriminate]. Qed.
Lemma single_next s e s' : next_byte s = (Some (Err e), s') -> e <> CComposite.
Proof. intros H. apply next_byte_error in H as ->. discriminate. Qed.
Lemma single_chars fuel : forall s cb res, single (fst (read_chars fuel s cb res)).
Proof.
  induction fuel as [|fuel IH]; intros s cb res; cbn [read_chars]; [discriminate|]. destruct (next_byte s) as [[[b|e|]|] s'] eqn:E; try discriminate.
  - destruct (from_utf8 _); [destruct (text_eqb _ _); [discriminate|apply IH]|apply IH|discriminate].
  - apply single_next in E. cbn [fst]. intros [= ->]. contradiction.
Qed.
Lemma plain_prompt p : plain (read_prompt p).
Proof.
  intros u. unfold read_prompt. destruct (negb _); [discriminate|]. revert u. apply plain_bind; [apply plain_emit|]. intros _ u.
  destruct (u_input u) as [s|]; [|discriminate]. pose proof (single_chars (S (source_size s)) s [] []) as H. destruct (read_chars _ _ _ _) as [r s']. exact H.
Qed.
Lemma plain_password p : plain (read_password p).
Proof.
  intros u. unfold read_password. destruct (negb _); [discriminate|]. revert u. apply plain_bind; [intros u; discriminate|]. intros _ u.
  pose proof (plain_prompt p u) as H. destruct (read_prompt p u) as [r u1]. cbn [fst] in H. clear u. revert u1.
  apply plain_bind; [intros u1; discriminate|]. intros _. apply plain_bind; [apply plain_interactive|]. intros _. apply plain_lift, H.
Qed.
Lemma plain_interactively d n : plain (read_password_interactively d n).
Proof.
  intros u. unfold read_password_interactively. destruct (negb _); [discriminate|]. cbv zeta. match goal with |- context [password_loop _ d ?msg] => generalize msg end. intros msg.
  generalize (S (input_size u)) as fuel. intros fuel. revert u. change (plain (password_loop fuel d msg)).
  induction fuel as [|fuel IH]; [apply plain_lift; discriminate|]. cbn [password_loop]. apply plain_bind; [apply plain_password|]. intros p.
  destruct (text_eqb p []); [apply plain_bind; [apply plain_interactive|intros _; exact IH]|].
  apply plain_bind.
  - destruct (is_encrypt d); [|apply plain_ret]. apply plain_bind; [apply plain_password|]. intros q. apply plain_ret.
  - intros [|]; (apply plain_bind; [apply plain_interactive|]); intros _; [apply plain_ret|exact IH].
Qed.

Section WithEnvironment.
Variable sha512 : bytes -> bytes.
Variable files : text -> option bytes.

Lemma single_hex t sk : single (try_parse_hex sha512 t sk).
Proof. unfold try_parse_hex, map_err. destruct (if sk then _ else _); discriminate. Qed.
Lemma single_hex32 t sk : single (from_hex32 sha512 t sk).
Proof. apply single_bind; [apply single_hex|]. intros b. destruct (_ =? 32); discriminate. Qed.
Lemma single_hex64 t sk : single (from_hex64_private_key sha512 t sk).
Proof.
  unfold from_hex64_private_key. cbv zeta. apply single_bind; [apply single_ensure; discriminate|]. intros _. apply single_bind; [apply split_no_error|]. intros [a b].
  apply single_bind; [apply single_hex|]. intros a'. apply single_bind; [apply single_hex|]. intros b'. apply single_bind; [apply single_assert|]. intros _.
  apply single_bind; [apply single_assert|]. intros _. apply single_ok.
Qed.
Lemma single_lines {A} content (f : text -> outcome cerr A) : (forall t, single (f t)) -> single (read_file_lines content f).
Proof.
  intros H. apply single_bind; [destruct content as [b|]; [destruct (from_utf8 b)|]; discriminate|]. intros s. apply single_bind; [apply single_map, H|]. intros cs.
  apply single_bind; [apply single_ensure; discriminate|]. intros _. apply single_ok.
Qed.
Lemma plain_token d s t : plain (read_token sha512 files d s t).
Proof.
  destruct t; cbn [read_token]; try (apply plain_lift; discriminate).
  - apply plain_bind; [apply plain_interactively|intros; apply plain_ret].
  - apply plain_bind; [apply plain_interactively|intros; apply plain_ret].
  - apply plain_lift, single_lines. intros t. apply single_ok.
  - apply plain_lift, single_lines. intros t. apply single_bind; [apply single_hex32|intros; apply single_ok].
  - apply plain_bind; [apply plain_ensure; discriminate|]. intros _. apply plain_lift, single_lines. intros t. apply single_bind; [apply single_hex32|intros; apply single_ok].
  - apply plain_bind; [apply plain_ensure; discriminate|]. intros _. apply plain_bind; [|intros; apply plain_ret]. apply plain_lift, single_bind; [apply single_hex32|intros; apply single_ok].
  - apply plain_bind; [apply plain_ensure; discriminate|]. intros _. apply plain_lift, single_lines. intros t. apply single_bind; [apply single_hex64|intros; apply single_ok].
Qed.
Lemma plain_add_creds st cs : plain (add_creds st cs).
Proof. apply plain_bind; [apply plain_ensure; discriminate|intros; apply plain_ret]. Qed.
Lemma single_finish level b st : single (finish_group level b st).
Proof.
  unfold finish_group, single, bind, ensure. repeat (destruct (negb _) || destruct (_ <? _) || destruct (_ <=? _)); discriminate.
Qed.
Lemma plain_parse_loop d s fuel : forall level st ts, plain (parse_loop sha512 files fuel d s level st ts).
Proof.
  induction fuel as [|fuel IH]; intros level st ts; [apply plain_lift; discriminate|]. cbn [parse_loop].
  destruct ts as [|t ts]; [apply plain_bind; [apply plain_lift, single_finish|intros ?; apply plain_ret]|].
  apply plain_bind; [apply plain_ensure; discriminate|]. intros _. apply plain_bind; [apply plain_ensure; discriminate|]. intros _.
  destruct t;
    try (apply plain_bind; [apply plain_token|]; intros cs; apply plain_bind; [apply plain_add_creds|]; intros st'; apply IH);
    try (apply plain_bind; [apply plain_ensure; discriminate|]; intros ?; apply IH).
  - apply plain_bind; [apply IH|]. intros [c ts']. apply plain_bind; [apply plain_add_creds|]. intros st'. apply IH.
  - apply plain_bind; [apply plain_lift, single_finish|]. intros ?. apply plain_ret.
Qed.
Lemma plain_complex d s ts : plain (parse_complex_credential sha512 files d s ts).
Proof. apply plain_bind; [apply plain_parse_loop|]. intros [c l]. apply plain_ret. Qed.
Lemma single_extract m : single (extract_tokens m).
Proof.
  apply single_bind.
  - apply single_map. intros [o c]. apply single_map. intros [pos v]. apply single_bind; [|intros; apply single_ok]. intros E. apply parse_usize_error in E. discriminate E.
  - intros x. cbv zeta. destruct (_ && _); discriminate.
Qed.
Lemma plain_get_encrypt m force : plain (get_encrypt_credential sha512 files m force).
Proof. apply plain_bind; [apply plain_lift, single_extract|]. intros ts. apply plain_complex. Qed.
Lemma plain_get_decrypt m force : plain (get_decrypt_credentials sha512 files m force).
Proof.
  apply plain_bind; [apply plain_lift, single_extract|]. intros ts. apply plain_bind; [apply plain_complex|]. intros c. destruct c; try (apply plain_lift; discriminate).
  apply plain_bind; [apply plain_lift, single_assert|]. intros _. apply plain_bind; [apply plain_lift, single_assert|]. intros _. apply plain_lift, single_map.
  intros [n c]. apply single_bind; [apply single_assert|]. intros _. apply single_ok.
Qed.
Lemma single_options args : single (parse_options args).
Proof.
  apply single_bind.
  - destruct (read_or_wrong (length args) 0 args (le_n _)) as [(os & f & R)|(e & G)].
    + rewrite (reads_parse _ _ _ _ R). discriminate.
    + rewrite (goes_wrong_parse _ _ G). intros [= ->]. remember CComposite as e eqn:Ee. induction G as [args e W|]; [|auto]. destruct W; discriminate Ee.
  - intros [occs free]. apply single_bind; [apply single_ensure; discriminate|]. intros _. apply single_ok.
Qed.
Lemma single_keypairs l : forall taken, single (keypair_streams taken l).
Proof.
  induction l as [|a l IH]; intros taken; cbn [keypair_streams]; [apply single_ok|]. destruct (text_eqb a dash).
  - apply single_bind; [apply single_ensure; discriminate|]. intros _. apply single_bind; [apply IH|]. intros. apply single_ok.
  - cbv zeta. apply single_bind; [apply IH|]. intros. apply single_ok.
Qed.
Lemma plain_line args tin tout terr : plain (parse_command_line sha512 files args tin tout terr).
Proof.
  unfold parse_command_line. apply plain_bind; [apply plain_lift, single_options|]. intros m. cbv zeta. apply plain_bind; [apply plain_ensure; discriminate|]. intros _.
  apply plain_bind; [intros u; discriminate|]. intros _. destruct (if _ : bool then MHelp else get_mode m) as [d| | |]; [| |apply plain_ret|apply plain_ret].
  - apply plain_bind.
    { apply plain_lift. unfold get_input_output_streams. cbv zeta. destruct (_ || _); [destruct (m_free m) as [|a [|b l]]; discriminate|].
      apply single_bind; [apply single_ensure; discriminate|]. intros _. apply single_ok. }
    intros streams. apply plain_bind.
    { intros u. unfold check_and_adjust_ui_verbosity. cbv zeta. destruct (_ && _ && _); [discriminate|]. destruct (_ && _ && _); [discriminate|]. destruct (_ =? 0)%Z; discriminate. }
    intros _. apply plain_bind; [destruct (opt_present _ OKeepInputs), (opt_present _ ODiscardInputs); apply plain_lift; discriminate|].
    intros policy. apply plain_bind; [|intros; apply plain_ret]. destruct d; (apply plain_bind; [apply plain_get_encrypt || apply plain_get_decrypt|intros; apply plain_ret]).
  - apply plain_bind; [|intros; apply plain_ret]. apply plain_lift. unfold get_keypair_streams. apply single_bind; [apply single_ensure; discriminate|]. intros _. apply single_keypairs.
Qed.

(** ** What reading the command line shows *)
Definition increase (streams : list io_stream) (d : crypt_direction) (tin tout terr : bool) : bool :=
  terr && (tin || (match streams with [s] => is_stdin s | _ => false end && negb (is_encrypt d))) &&
  (tout || (match streams with [s] => is_stdout s | _ => false end && is_encrypt d)).
Lemma line_cases args tin tout terr occs free u r u' : parse_options args = Ok (mkMatches occs free) -> (-2 <= quietness occs <= 2)%Z ->
  parse_command_line sha512 files args tin tout terr u = (r, u') ->
  (u' = set_verbosity u (- quietness occs)%Z /\
    ((exists e, r = Err e) \/ (given OGenKeypair occs /\ exists ks f, r = Ok (GenerateKeyPair ks f)) \/ r = Ok Help \/ r = Ok Version)) \/
  exists streams d force v pe, get_input_output_streams (mkMatches occs free) d force = Ok streams /\
    steady (set_progress_enabled (set_verbosity u v) pe) u' /\
    (v = if (quietness occs =? 0)%Z then if increase streams d tin tout terr then 1 else -1 else - quietness occs)%Z.
Proof.
  intros P Q H. unfold parse_command_line in H. unfold bind_act at 1, lift at 1 in H. rewrite P in H. cbv zeta in H.
  assert (V : (Z.of_N (opt_count (mkMatches occs free) OVerbose) - Z.of_N (opt_count (mkMatches occs free) OQuiet) = - quietness occs)%Z) by (rewrite !times_count; unfold quietness; lia).
  rewrite V in H. unfold bind_act at 1, ensure_act at 1, ensure, lift at 1 in H.
  replace ((-2 <=? - quietness occs)%Z && (- quietness occs <=? 2)%Z) with true in H by (symmetry; apply andb_true_intro; split; apply Z.leb_le; lia).
  unfold bind_act at 1 in H. destruct (if match args with [] => true | _ => false end && tout then MHelp else get_mode (mkMatches occs free)) as [d| | |] eqn:M.
  - unfold bind_act at 1, lift at 1 in H. destruct (get_input_output_streams (mkMatches occs free) d (opt_present (mkMatches occs free) OForce)) as [streams|e|] eqn:S.
    2:{ left. injection H as <- <-. split; [reflexivity|]. left. eexists. reflexivity. }
    2:{ exfalso. revert S. unfold get_input_output_streams. cbv zeta. destruct (_ || _); [destruct free as [|a [|b l]]; discriminate|]. unfold bind, ensure. destruct (negb _); discriminate. }
    unfold bind_act at 1 in H. destruct (check_and_adjust_ui_verbosity _ _ _ _ _ _ _ _) as [r1 u1] eqn:C. unfold check_and_adjust_ui_verbosity in C. cbv zeta in C.
    destruct (tin && _ && _). { injection C as <- <-. injection H as <- <-. left. split; [reflexivity|]. left. eexists. reflexivity. }
    destruct (tout && _ && _). { injection C as <- <-. injection H as <- <-. left. split; [reflexivity|]. left. eexists. reflexivity. }
    right. exists streams, d, (opt_present (mkMatches occs free) OForce).
    assert (R : steady u1 u' /\ exists v pe, u1 = set_progress_enabled (set_verbosity u v) pe /\ (v = if (quietness occs =? 0)%Z then if increase streams d tin tout terr then 1 else -1 else - quietness occs)%Z).
    { assert (r1 = Ok tt) as -> by (destruct (_ =? 0)%Z in C; injection C as <- _; reflexivity). split.
      - revert H. match goal with |- ?m u1 = _ -> _ => assert (MM : mild any m) end; [|intros H; specialize (MM u1 I); rewrite H in MM; exact MM].
        clear. apply (mild_bind any alike_any); [destruct (opt_present _ OKeepInputs), (opt_present _ ODiscardInputs); first [apply mild_ret|apply mild_lift]|].
        intros policy. apply (mild_bind any alike_any); [|intros; apply mild_ret]. destruct d; (apply (mild_bind any alike_any); [apply mild_get_encrypt || apply mild_get_decrypt|intros; apply mild_ret]).
      - destruct (Z.eqb_spec (- quietness occs) 0) as [E|E].
        + injection C as <-. replace (quietness occs =? 0)%Z with true by (symmetry; apply Z.eqb_eq; lia). eexists _, _. split; reflexivity.
        + injection C as <-. replace (quietness occs =? 0)%Z with false by (symmetry; apply Z.eqb_neq; lia). exists (- quietness occs)%Z, (u_progress_enabled u). split; [|reflexivity]. destruct u; reflexivity. }
    destruct R as (R & v & pe & -> & Hv). exists v, pe. split; [exact S|]. split; [exact R|exact Hv].
  - left. unfold bind_act, lift, ret in H. destruct (get_keypair_streams (mkMatches occs free)) as [ks|e|] eqn:S; injection H as <- <-.
    + split; [reflexivity|]. right. left. destruct (match args with [] => true | _ => false end && tout); [discriminate M|].
      split; [|eauto]. apply some_mode in M as [[M _]|(x & Ix & Mx)]; [discriminate M|]. exists x. split; [exact Ix|]. destruct (o_opt x); try discriminate Mx. reflexivity.
    + split; [reflexivity|]. left. eauto.
    + exfalso. revert S. unfold get_keypair_streams, bind, ensure. destruct (match m_free _ with [] => _ | _ => _ end); [|discriminate]. cbn [m_free].
      generalize false. clear. induction free as [|a l IH]; intros tk; cbn [keypair_streams]; [discriminate|]. destruct (text_eqb a dash).
      * unfold bind, ensure. destruct (negb tk); [|discriminate]. destruct (keypair_streams true l) eqn:E; try discriminate. intros _. exact (IH _ E).
      * cbv zeta. unfold bind. destruct (keypair_streams tk l) eqn:E; try discriminate. intros _. exact (IH _ E).
  - left. injection H as <- <-. split; [reflexivity|]. auto.
  - left. injection H as <- <-. split; [reflexivity|]. auto.
Qed.
End WithEnvironment.

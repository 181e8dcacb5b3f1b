(** Why the whole program crashes. *)
From Coq.Strings Require Import Byte String.
From Coq Require Import List NArith ZArith Bool PeanoNat Lia.
From Verif Require Import Base BaseFacts Shamir Errors Io HeaderIo HeaderIoSpec HeaderIoProofs StreamSpec Text Util CliErrors Crypto Proto HeaderCrypto CredSpec HeaderCryptoProofs3 HeaderCryptoProofs4 HeaderPanics StreamCrypto Pipeline PipelineSpec FileCrypto
  KeyFiles Ui UiSpec UiProofs UiProofs2 SettingsProofs Paths PathProofs Getopts CliCreds CliSpec CliProofs CliProofs2 CliProofs3 CliProofs4 Cli Fs Commands FsSpec FsProofs ConvProofs FsProofs2 FsProofs3 FsProofs4 FsProofs10 FsProofs11 FsProofs13.
Import ListNotations.
Local Open Scope N_scope.

Lemma cluster_calm pos cs : cluster pos cs <> Panic.
Proof.
  induction cs as [|c cs IH]; cbn [cluster]; [discriminate|]. destruct (find_short c) as [o|]; [|discriminate]. destruct (has_value o); [discriminate|].
  destruct (cluster pos cs) as [[occs last]| |]; cbn [bind]; [discriminate..|exact IH].
Qed.
Lemma parse_args_calm n : forall args pos, (length args <= n)%nat -> parse_args pos args <> Panic.
Proof.
  induction n as [|n IH]; intros [|cur args] pos L; cbn [length] in L; try (cbn; discriminate); [lia|]. 
  assert (A : forall occs args' p, (length args' <= length args)%nat -> add_occs occs (parse_args p args') <> Panic).
  { intros occs args' p L'. unfold add_occs. specialize (IH args' p ltac:(lia)). destruct (parse_args p args'); cbn [bind]; congruence. }
  destruct (arg_forms cur) as [->|[(tail & Nt & ->)|[(c & cs & Nc & ->)|Ff]]].
  - discriminate.
  - rewrite args_long by exact Nt. destruct (split_equals tail) as [name value]. destruct (find_name name) as [o|]; [|discriminate].
    destruct (has_value o), value as [v|]; [apply A; lia| |discriminate|apply A; lia]. destruct args; [discriminate|]. apply A. cbn [length]. lia.
  - rewrite args_short by exact Nc. pose proof (cluster_calm pos (c :: cs)) as C. destruct (cluster pos (c :: cs)) as [[occs last]| |]; [|discriminate|congruence]. cbn [bind].
    destruct last as [[o [|x v]]|]; [|apply A; lia..]. destruct args; [discriminate|]. apply A. cbn [length]. lia.
  - rewrite args_free by exact Ff. specialize (IH args (S pos) ltac:(lia)). destruct (parse_args (S pos) args); cbn [bind]; congruence.
Qed.
Lemma parse_options_calm args : parse_options args <> Panic.
Proof.
  unfold parse_options. pose proof (parse_args_calm _ args 0 (Nat.le_refl _)) as P. destruct (parse_args 0 args); [|discriminate|congruence]. cbn [bind].
  unfold ensure. destruct (forallb _ _); discriminate.
Qed.
Lemma streams_calm m d force : get_input_output_streams m d force <> Panic.
Proof.
  unfold get_input_output_streams. destruct (_ || _).
  - destruct (m_free m) as [|a [|b l]]; discriminate.
  - unfold ensure. destruct (negb _); discriminate.
Qed.
Lemma keypair_calm m : get_keypair_streams m <> Panic.
Proof.
  unfold get_keypair_streams. assert (K : forall l taken, keypair_streams taken l <> Panic).
  { induction l as [|a l IH]; intros taken; cbn [keypair_streams]; [discriminate|]. destruct (text_eqb a dash).
    - unfold ensure. destruct (negb taken); [|discriminate]. cbn [bind]. specialize (IH true). destruct (keypair_streams true l); cbn [bind]; congruence.
    - specialize (IH taken). destruct (keypair_streams taken l); cbn [bind]; congruence. }
  unfold ensure. destruct (m_free m); [discriminate|]. apply K.
Qed.

Section Env.
Variable sha512 : bytes -> bytes.
Variable files : text -> option bytes.

(** Reading the command line crashes only on account of a private key file. *)
Lemma command_line_panic args ti to te u u' : parse_command_line sha512 files args ti to te u = (Panic, u') ->
  exists m ts f, parse_options args = Ok m /\ get_mode m = MCrypt Decrypt /\ extract_tokens m = Ok ts /\ In (PrivateKeyFile f) ts /\
    read_file_lines (files f) (private_key_line sha512 (opt_present m OForce)) = Panic.
Proof.
  unfold parse_command_line. intros H. apply bind_panic in H as [H|(m & u1 & E & H)]; [injection H as H _; exfalso; exact (parse_options_calm _ H)|]. apply lift_ok in E as [E ->].
  apply bind_panic in H as [H|(x & u1 & _ & H)]; [exfalso; exact (lift_ensure_no_panic _ _ _ _ H)|]. apply bind_panic in H as [H|(x' & u2 & _ & H)]; [discriminate H|].
  destruct (match args with [] => true | _ => false end && to); [discriminate H|].
  destruct (get_mode m) as [d| | |] eqn:Em; [|apply bind_panic in H as [H|(ks & u3 & _ & H)]; [injection H as H _; exfalso; exact (keypair_calm _ H)|discriminate H]|discriminate H..].
  apply bind_panic in H as [H|(ss & u3 & _ & H)]; [injection H as H _; exfalso; exact (streams_calm _ _ _ H)|].
  apply bind_panic in H as [H|(y & u4 & _ & H)].
  { exfalso. revert H. unfold check_and_adjust_ui_verbosity. cbv zeta. destruct (_ && negb _); [discriminate|]. destruct (_ && negb _); [discriminate|]. destruct (_ =? _)%Z; discriminate. }
  apply bind_panic in H as [H|(po & u5 & _ & H)]; [destruct (opt_present m OKeepInputs), (opt_present m ODiscardInputs); discriminate H|].
  apply bind_panic in H as [H|(dir & u6 & _ & H)]; [|discriminate H]. destruct d.
  - exfalso. apply bind_panic in H as [H|(c & u7 & _ & H)]; [|discriminate H]. unfold get_encrypt_credential in H. apply bind_panic in H as [H|(ts & v & _ & H)].
    + injection H as H _. exact (extract_no_panic _ H).
    + apply parse_panic in H as (t & v1 & v2 & _ & K & H). pose proof H as H0. apply read_token_panic in H as (f & -> & _); [|exact K]. discriminate H0.
  - apply bind_panic in H as [H|(c & u7 & _ & H)]; [|discriminate H]. apply get_decrypt_panic in H as [H|(ts & Et & H)]; [exfalso; exact (extract_no_panic _ H)|].
    apply decrypt_panic in H as (t & v & v' & It & K & H). apply read_token_panic in H as (f & -> & H); [|exact K].
    exists m, ts, f. do 3 (split; [assumption|]). split; [|exact H]. destruct ts as [|x0 ts]; [destruct It as [It|[]]; discriminate It|exact It].
Qed.

(** It leaves the input. *)
Lemma command_line_input args ti to te u c u' : parse_command_line sha512 files args ti to te u = (Ok c, u') -> has_input u' = has_input u.
Proof.
  intros H. assert (K : forall m d streams v force u, has_input (snd (check_and_adjust_ui_verbosity v streams d force ti to te u)) = has_input u /\ has_input (set_verbosity u v) = has_input u /\
      has_input (snd (get_encrypt_credential sha512 files m force u)) = has_input u /\ has_input (snd (get_decrypt_credentials sha512 files m force u)) = has_input u).
  { intros m d streams v force v0. split; [|split; [reflexivity|split]].
    - unfold check_and_adjust_ui_verbosity. cbv zeta. destruct (_ && negb _); [reflexivity|]. destruct (_ && negb _); [reflexivity|]. destruct (_ =? _)%Z; reflexivity.
    - pose proof (keeps_get_encrypt sha512 files m force v0) as E. unfold settings in E. congruence.
    - pose proof (keeps_get_decrypt sha512 files m force v0) as E. unfold settings in E. congruence. }
  unfold parse_command_line in H. apply bind_ok in H as (m & u0 & H0 & H). apply lift_ok in H0 as [H0 ->].
  apply bind_ok in H as (x & u0 & H1 & H). apply ensure_ok in H1 as (_ & _ & ->). apply bind_ok in H as (x' & u1 & H1 & H). injection H1 as <- <-.
  destruct (if match args with [] => true | _ => false end && to then MHelp else get_mode m) as [d| | |].
  - apply bind_ok in H as (streams & u2 & H2 & H). apply lift_ok in H2 as [H2 ->]. apply bind_ok in H as ([] & u3 & H3 & H). apply bind_ok in H as (policy & u4 & H4 & H). apply bind_ok in H as (dir & u5 & H5 & H).
    apply ret_ok in H as [_ ->]. assert (u4 = u3) as -> by (destruct (opt_present m OKeepInputs), (opt_present m ODiscardInputs); try discriminate H4; apply ret_ok in H4 as [_ ->]; reflexivity).
    transitivity (has_input u3).
    + destruct d; apply bind_ok in H5 as (cr & u6 & H5 & H6); apply ret_ok in H6 as [_ ->].
      * pose proof (proj1 (proj2 (proj2 (K m Encrypt streams 0%Z (opt_present m OForce) u3)))) as E. rewrite H5 in E. exact E.
      * pose proof (proj2 (proj2 (proj2 (K m Encrypt streams 0%Z (opt_present m OForce) u3)))) as E. rewrite H5 in E. exact E.
    + match type of H3 with check_and_adjust_ui_verbosity ?v _ _ _ _ _ _ ?u0 = _ => pose proof (proj1 (K m d streams v (opt_present m OForce) u0)) as E end.
      rewrite H3 in E. exact E.
  - apply bind_ok in H as (ks & u2 & H2 & H). apply lift_ok in H2 as [_ ->]. apply ret_ok in H as [_ ->]. reflexivity.
  - apply ret_ok in H as [_ ->]. reflexivity.
  - apply ret_ok in H as [_ ->]. reflexivity.
Qed.

Variable entry_of : names.
Variable lib : crypto_lib.
Hypothesis Hlib : lib_ok lib.

Lemma main_panic args ti to te w w' : u_input (w_ui w) <> None -> main entry_of lib sha512 files args ti to te w 101 w' ->
  (exists m ts f, parse_options args = Ok m /\ get_mode m = MCrypt Decrypt /\ extract_tokens m = Ok ts /\ In (PrivateKeyFile f) ts /\
     read_file_lines (files f) (private_key_line sha512 (opt_present m OForce)) = Panic) \/
  stalls entry_of = true \/
  exists streams policy force d u1, parse_command_line sha512 files args ti to te (w_ui w) = (Ok (CryptStreams streams policy force d), u1) /\
    match d with
    | DoEncrypt c _ => enormous c
    | DoDecrypt D => exists st src ser k rest h t l cs ds, In st streams /\
        (force = false -> exists f, In f (moments w') /\ can_deliver entry_of f u1 (s_input st) src) /\
        read_header src = Ok (ser, k, rest) /\ decode_header ser = Some h /\ hd_payload_key h = Some (t, l) /\
        cryptosys_from_proto lib (hd_family h) = Ok cs /\ map_out (decryptor_from_credential cs (hd_ephemeral_pk h)) D = Ok ds /\ malformed_group ds (KComp t l)
    end.
Proof.
  intros Hi (r & w1 & H & Hr).
  assert (r = Panic /\ w' = w1) as [-> ->] by (destruct r as [[]|e|]; [destruct Hr; discriminate|destruct e; destruct Hr; discriminate|destruct Hr; auto]). clear Hr.
  destruct H as [(c & w2 & [Ep Ew] & H)|[(e & _ & E)|([Ep _] & _)]]; [|discriminate E|].
  2:{ left. eapply command_line_panic. rewrite Ep. apply surjective_pairing. }
  right. set (u1 := snd (parse_command_line sha512 files args ti to te (w_ui w))) in *.
  assert (Hc : parse_command_line sha512 files args ti to te (w_ui w) = (Ok c, u1)) by (rewrite Ep; apply surjective_pairing).
  destruct c as [streams policy force d|ks force| |]; cbn [run_command] in H.
  2:{ exfalso. exact (generate_calm entry_of lib Hlib sha512 _ _ _ _ H). }
  2:{ exfalso. destruct H as (out & _ & [E|[_ E]]); discriminate E. }
  2:{ exfalso. destruct H as (out & _ & [E|[_ E]]); discriminate E. }
  destruct (crypt_options sha512 files _ _ _ _ _ _ _ _ _ _ Hc) as (_ & _ & _ & Hk).
  apply crypt_panic in H as (st & Ist & R).
  2:{ destruct Hk as [Hk|(i & -> & _)]; [left; intros st I E; destruct (Hk st I); congruence|right; eauto]. }
  assert (Ui : u_input u1 <> None).
  { pose proof (command_line_input _ _ _ _ _ _ _ Hc) as E. unfold has_input in E. destruct (u_input (w_ui w)); [|contradiction]. destruct (u_input u1); [discriminate|discriminate E]. }
  subst w2. cbn [set_ui w_ui] in R.
  destruct R as [K|[[_ K]|[K|(er & src & snk & snk' & Er & Cv & Dl)]]]; [left; exact K|contradiction| |].
  { exfalso. apply command_line_inv in Hc as (m & _ & _ & Hc). destruct (Hc _ _ _ _ eq_refl) as (dir & v1 & v2 & _ & _ & Hs & _).
    destruct (streams_inv _ _ _ _ _ Hs Ist) as [(p & _ & _ & E)|(_ & E & _)]; [|congruence]. rewrite K in E. unfold bind in E.
    destruct dir; [unfold add_extension, ensure, bind in E; destruct (_ || _)|unfold remove_extension, ensure, bind in E; destruct (match extension p with Some _ => _ | None => _ end)]; discriminate E. }
  right. exists streams, policy, force, d, u1. split; [exact Hc|].
  apply command_line_inv in Hc as (m & Hm & _ & Hc). destruct (Hc _ _ _ _ eq_refl) as (dir & v1 & v2 & Hd & _ & _ & _ & Hcr & _). clear Hc.
  pose proof (conversion_panic lib Hlib _ _ _ _ _ Er Cv) as P. destruct d as [c fast|D].
  - destruct (fits_or_enormous c) as [F|F]; [|exact F]. destruct dir; [|destruct Hcr as (cs & E & _); discriminate E]. destruct Hcr as (c' & fast' & [= <- <-] & Hcr).
    destruct (get_encrypt_inv _ _ _ _ _ _ _ _ Hm Hcr) as (ts & _ & Hp). destruct (parse_sound _ _ _ _ _ _ _ Hp F) as (th & mem & Sp & V).
    pose proof (wf_of _ _ _ _ _ _ Sp _ _ _ _ V) as W. inversion V; subst. exact (encrypt_header_panic lib (mkEncryptOptions subs (total_shares subs) (needed th (total_shares subs)) fast) er Er W P).
  - destruct P as (ser & k & rest & Eh & Ed). destruct dir; [destruct Hcr as (c' & fast' & E & _); discriminate E|]. destruct Hcr as (cs & [= <-] & Hcr).
    assert (F : flat_creds D).
    { destruct (get_decrypt_inv _ _ _ _ _ _ _ _ Hm Hcr) as (ts & _ & Hp). destruct (decrypt_tokens_ok _ _ _ _ _ _ _ Hp) as [R _].
      pose proof (reads_flat _ _ _ _ _ _ _ R) as Fl. eapply Forall_impl; [|exact Fl]. intros x. destruct x; auto. }
    destruct (decrypt_header_panic lib ser D F Ed) as (h & t & l & cs & ds & A & B & C & E & G).
    exists st, src, ser, k, rest, h, t, l, cs, ds. repeat (split; [assumption|]).
    apply (HeaderCryptoProofs3.decrypt_panic cs (hd_ephemeral_pk h) D ds E (KComp t l) (KComp t l) 0); auto; [reflexivity|constructor].
Qed.
End Env.

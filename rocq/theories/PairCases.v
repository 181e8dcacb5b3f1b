(** A pair of key files and the runs that the examples of PropPair are about. *)
From Coq.Strings Require Import Byte String.
From Coq Require Import List NArith ZArith Bool PeanoNat Lia.
From Verif Require Import Base BaseFacts Shamir Errors Io Text TextProofs Util CliErrors Getopts Crypto HeaderCrypto CredSpec KeyFiles Ui UiSpec Paths PathSpec CliCreds Cli CliSpec OptSpec OptProofs CmdSpec
  Fs Commands FsSpec FsProofs FlowSpec FlowProofs ForceSpec PairSpec.
From Verif Require Import Proto ToyCrypto FsCases FsCases2.
Import ListNotations.
Local Open Scope N_scope.

(** The texts of the pair that is there. *)
Definition old_pair : text * text := match key_pair_texts case_digest (toy_pk [x6f]) (toy_sk [x6f]) with Ok p => p | _ => ([], []) end.
Definition pair_fs : fs := mkFs
  (fun s => if s =? num "me.pub" then Some (EFile 1) else if s =? num "me" then Some (EFile 2) else None)
  (fun i => if i =? 1 then Some (mkNode true (utf8 (fst old_pair)) 1) else if i =? 2 then Some (mkNode true (utf8 (snd old_pair)) 1) else None).
Definition pair_start : world := mkWorld pair_fs [] (w_ui case_start) [] [].
(** rypt -f -g me *)
Definition pair_command : list text := map lit ["-f"; "-g"; "me"]%string.
Definition pair_streams : key_streams := mkKeyStreams (Some (at_ "me.pub")) (OFile (at_ "me")).

Lemma pair_files s i : f_entries pair_fs s = Some (EFile i) -> (s = num "me.pub" /\ i = 1) \/ (s = num "me" /\ i = 2).
Proof.
  cbn [pair_fs f_entries]. destruct (N.eqb_spec s (num "me.pub")) as [->|_]; [intros [= <-]; auto|].
  destruct (N.eqb_spec s (num "me")) as [->|_]; [intros [= <-]; auto|]. discriminate.
Qed.
Lemma pair_wf : wf_fs pair_fs.
Proof.
  split.
  - intros s i E. apply pair_files in E as [[-> ->]|[-> ->]]; (eexists; split; [reflexivity|cbn; lia]).
  - intros s t i n E E' D. apply pair_files in E as [[-> ->]|[-> ->]]; apply pair_files in E' as [[-> X]|[-> X]]; try contradiction; discriminate X.
Qed.
Lemma pair_name : public_name (lit "me") (lit "me.pub").
Proof. right. split; [|reflexivity]. intros (b & e & Nb & E). destruct b as [|x [|y [|z b]]]; [contradiction Nb; reflexivity|discriminate E..]. Qed.
Lemma pair_public x : public_of (components (lit "me")) x -> x = at_ "me.pub".
Proof.
  intros (d & n & n' & F & P & X). unfold is_file in *. change (components (lit "me")) with ([] ++ [Normal (lit "me")]) in F. apply app_inj_tail in F as [<- F]. injection F as F.
  assert (n = lit "me") as -> by (symmetry; exact F). rewrite (public_name_unique _ _ _ P pair_name) in X. exact X.
Qed.
Lemma pair_place x : key_place [lit "me"] x -> x = at_ "me" \/ x = at_ "me.pub".
Proof. intros (a & [<-|[]] & _ & [->|P]); [left; reflexivity|right; apply pair_public, P]. Qed.
Lemma pair_unambiguous b b' : unambiguous_keys (case_names b b') pair_fs [lit "me"].
Proof.
  constructor.
  - intros l1 a l2 c l3 E. destruct (case_single _ _ _ _ _ _ _ E).
  - intros a [<-|[]] _. exists [], (lit "me"). reflexivity.
  - intros a c [<-|[]] [<-|[]] P. apply pair_public in P. vm_compute in P. discriminate P.
  - intros a c x [<-|[]] [<-|[]] _ _. reflexivity.
  - intros x y Px Py E _. destruct (pair_place x Px) as [->| ->], (pair_place y Py) as [->| ->]; try reflexivity; vm_compute in E; discriminate E.
  - intros x e Px E. destruct (pair_place x Px) as [->| ->].
    + change (Some (num "me") = Some e) in E. injection E as <-. right. exists (utf8 (snd old_pair)), 2. split; reflexivity.
    + change (Some (num "me.pub") = Some e) in E. injection E as <-. right. exists (utf8 (fst old_pair)), 1. split; reflexivity.
Qed.
Lemma pair_old : texts_of_a_pair toy_lib case_digest (fst old_pair) (snd old_pair).
Proof. exists toy_cs, [x6f]. split; [reflexivity|]. vm_compute. reflexivity. Qed.
Lemma pair_before b b' : complete_pair (case_names b b') toy_lib case_digest pair_fs (at_ "me.pub") (at_ "me").
Proof.
  exists (fst old_pair), (snd old_pair), (num "me.pub"), (num "me"). split; [exact pair_old|]. split; [reflexivity|]. split; [exists 1; split; reflexivity|]. split; [reflexivity|]. exists 2. split; reflexivity.
Qed.
Lemma pair_parsed : parse_command_line case_digest case_secrets pair_command false false false (w_ui pair_start) = (Ok (GenerateKeyPair [pair_streams] true), w_ui pair_start).
Proof. vm_compute. reflexivity. Qed.
Lemma pair_means : exists occs, means 0 pair_command occs [lit "me"] /\ asks_for_keys occs.
Proof.
  destruct (parse_options pair_command) as [m| |] eqn:P; try discriminate P. destruct (proj1 (options_read _ _) P) as [M _]. vm_compute in P. injection P as <-. cbn [m_occs m_free] in M.
  eexists. split; [exact M|]. split; [eexists; split; [right; left; reflexivity|reflexivity]|]. intros o (x & I & <-). cbn [In] in I. repeat (destruct I as [<-|I]); try destruct I; cbn; intuition discriminate.
Qed.

Lemma try_runs {A} (m : io A) x w w' : m w x w' -> x <> Panic -> io_try m w (Ok x) w'.
Proof. intros H N. left. eauto. Qed.
(** A file is opened again. *)
Lemma reopens E p s i b w : entry_number E p = Some s -> follow max_links (w_fs w) s = Some s -> f_entries (w_fs w) s = Some (EFile i) -> f_nodes (w_fs w) i = Some (mkNode true b 1) ->
  open_output E (OFile p) true w (Ok (WriteNode i)) (set_fs w (set_content (w_fs w) i [])).
Proof. intros A F B C. right. exists s, s, i. split; [exact A|]. split; [exact F|]. split; [reflexivity|]. right. exists (mkNode true b 1). auto. Qed.
(** The private key contains the public key. *)
Lemma pair_contains lib sha512 public private : texts_of_a_pair lib sha512 public private -> exists x, utf8 private = x ++ utf8 public.
Proof.
  intros (cs & seed & _ & E). unfold key_pair_texts in E. destruct (assert _) as [[]| |]; try discriminate E. injection E as <- <-. eexists. apply utf8_app.
Qed.
Lemma pair_torn E g : entry_number E = case_number -> plain_file g (num "me.pub") (utf8 case_public) -> plain_file g (num "me") (utf8 (snd old_pair)) ->
  ~ complete_pair E toy_lib case_digest g (at_ "me.pub") (at_ "me").
Proof.
  intros EN F G (public & private & t & u & Tx & Et & F' & Eu & G'). rewrite EN in Et, Eu. change (Some (num "me.pub") = Some t) in Et. injection Et as <-. change (Some (num "me") = Some u) in Eu. injection Eu as <-.
  pose proof (plain_unique _ _ _ _ F F') as X. pose proof (plain_unique _ _ _ _ G G') as Y. destruct (pair_contains _ _ _ _ Tx) as (x & Z). rewrite <- X, <- Y in Z.
  apply (f_equal (fun b => skipn (length b - length (utf8 case_public)) b)) in Z. rewrite app_length, Nat.add_sub, skipn_app, skipn_all, Nat.sub_diag in Z. cbn [app skipn] in Z.
  clear - Z. vm_compute in Z. discriminate Z.
Qed.

(** All goes well. *)
Lemma pair_runs : exists w', main (case_names false false) toy_lib case_digest case_secrets pair_command false false false pair_start 0 w' /\
  plain_file (w_fs w') (num "me.pub") (utf8 case_public) /\ plain_file (w_fs w') (num "me") (utf8 case_private).
Proof.
  eexists. split.
  - exists (Ok tt). eexists. split; [|split; reflexivity]. eapply bind_runs; [apply ui_runs; rewrite pair_parsed; reflexivity|]. rewrite pair_parsed. cbn [snd run_command].
    unfold generate_key_pair_files. eapply (bind_runs _ _ toy_cs); [split; reflexivity|]. eapply (bind_runs _ _ []); [|split; reflexivity]. cbn [generate_all].
    eapply (bind_runs _ _ (cs_keypair toy_cs [])); [split; [reflexivity|exists []; reflexivity]|]. destruct (cs_keypair toy_cs []) as [pk sk] eqn:Ek.
    assert (K : key_pair_texts case_digest pk sk = Ok (case_public, case_private)) by (pose proof (proj1 case_key_texts) as K; rewrite Ek in K; exact K).
    eapply (bind_runs _ _ (case_public, case_private)); [split; [symmetry; exact K|reflexivity]|]. clear pk sk Ek K.
    eapply bind_runs; [apply ui_runs; reflexivity|]. eapply bind_runs; [apply ui_runs; reflexivity|].
    eapply (bind_runs _ _ (Ok tt)).
    { apply try_runs; [|discriminate]. unfold write_pair. cbn [pair_streams k_public k_private].
      eapply bind_runs.
      - eapply bind_runs; [apply ui_runs; reflexivity|]. eapply bind_runs; [|apply write_text_works]. apply (reopens _ _ (num "me.pub") 1 (utf8 (fst old_pair))); vm_compute; reflexivity.
      - eapply bind_runs; [apply ui_runs; reflexivity|]. eapply bind_runs; [|apply write_text_works]. apply (reopens _ _ (num "me") 2 (utf8 (snd old_pair))); vm_compute; reflexivity. }
    eapply bind_runs; [split; reflexivity|]. eapply bind_runs; [apply ui_runs; vm_compute; reflexivity|]. eapply (bind_runs _ _ []); [split; reflexivity|]. split; reflexivity.
  - split; [exists 1|exists 2]; split; vm_compute; reflexivity.
Qed.

(** The private key may not be written. *)
Lemma pair_fails : exists w', main (case_names true false) toy_lib case_digest case_secrets pair_command false false false pair_start 1 w' /\
  plain_file (w_fs w') (num "me.pub") (utf8 case_public) /\ plain_file (w_fs w') (num "me") (utf8 (snd old_pair)) /\
  forall u, (exists b, plain_file (w_fs w') u b) -> u = num "me.pub" \/ u = num "me".
Proof.
  eexists. split.
  - exists (Err CComposite). eexists. split; [|split; reflexivity]. eapply bind_runs; [apply ui_runs; rewrite pair_parsed; reflexivity|]. rewrite pair_parsed. cbn [snd run_command].
    unfold generate_key_pair_files. eapply (bind_runs _ _ toy_cs); [split; reflexivity|]. eapply (bind_runs _ _ [CIo]); [|split; reflexivity]. cbn [generate_all].
    eapply (bind_runs _ _ (cs_keypair toy_cs [])); [split; [reflexivity|exists []; reflexivity]|]. destruct (cs_keypair toy_cs []) as [pk sk] eqn:Ek.
    assert (K : key_pair_texts case_digest pk sk = Ok (case_public, case_private)) by (pose proof (proj1 case_key_texts) as K; rewrite Ek in K; exact K).
    eapply (bind_runs _ _ (case_public, case_private)); [split; [symmetry; exact K|reflexivity]|]. clear pk sk Ek K.
    eapply bind_runs; [apply ui_runs; reflexivity|]. eapply bind_runs; [apply ui_runs; reflexivity|].
    eapply (bind_runs _ _ (Err CIo)).
    { apply try_runs; [|discriminate]. unfold write_pair. cbn [pair_streams k_public k_private].
      eapply bind_runs.
      - eapply bind_runs; [apply ui_runs; reflexivity|]. eapply bind_runs; [|apply write_text_works]. apply (reopens _ _ (num "me.pub") 1 (utf8 (fst old_pair))); vm_compute; reflexivity.
      - eapply bind_runs; [apply ui_runs; reflexivity|]. right. left. exists CIo. split; [|reflexivity]. left. split; [reflexivity|]. split; [reflexivity|]. left. reflexivity. }
    eapply (bind_runs _ _ [CIo]); [eapply bind_runs; [apply ui_runs; vm_compute; reflexivity|split; reflexivity]|].
    eapply bind_runs; [apply ui_runs; vm_compute; reflexivity|]. eapply (bind_runs _ _ []); [split; reflexivity|]. split; reflexivity.
  - split; [exists 1; split; vm_compute; reflexivity|]. split; [exists 2; split; vm_compute; reflexivity|].
    intros u (b & i & E & _). match type of E with f_entries ?g u = _ => assert (X : f_entries g = f_entries pair_fs) by (vm_compute; reflexivity); rewrite X in E; clear X end. destruct (pair_files u i E) as [[-> _]|[-> _]]; auto.
Qed.

(** ** Only the private key is there *)

Definition lone_fs : fs := mkFs (fun s => if s =? num "me" then Some (EFile 2) else None) (fun i => if i =? 2 then Some (mkNode true (utf8 (snd old_pair)) 1) else None).
Definition lone_start : world := mkWorld lone_fs [] (w_ui case_start) [] [].
Lemma lone_files s i : f_entries lone_fs s = Some (EFile i) -> s = num "me" /\ i = 2.
Proof. cbn [lone_fs f_entries]. destruct (N.eqb_spec s (num "me")) as [->|_]; [intros [= <-]; auto|]. discriminate. Qed.
Lemma lone_wf : wf_fs lone_fs.
Proof.
  split.
  - intros s i E. apply lone_files in E as [-> ->]. eexists. split; [reflexivity|cbn; lia].
  - intros s t i n E E' D. apply lone_files in E as [-> ->]. apply lone_files in E' as [-> X]. contradiction.
Qed.
Lemma lone_unambiguous b b' : unambiguous_keys (case_names b b') lone_fs [lit "me"].
Proof.
  destruct (pair_unambiguous b b') as [A B C D E _]. constructor; try assumption.
  intros x e Px X. destruct (pair_place x Px) as [->| ->].
  - change (Some (num "me") = Some e) in X. injection X as <-. right. exists (utf8 (snd old_pair)), 2. split; reflexivity.
  - change (Some (num "me.pub") = Some e) in X. injection X as <-. left. reflexivity.
Qed.
Lemma lone_parsed : parse_command_line case_digest case_secrets case_keygen false false false (w_ui lone_start) = (Ok (GenerateKeyPair [pair_streams] false), w_ui lone_start).
Proof. vm_compute. reflexivity. Qed.
Lemma lone_means : exists occs, means 0 case_keygen occs [lit "me"] /\ asks_for_keys occs.
Proof.
  destruct (parse_options case_keygen) as [m| |] eqn:P; try discriminate P. destruct (proj1 (options_read _ _) P) as [M _]. vm_compute in P. injection P as <-. cbn [m_occs m_free] in M.
  eexists. split; [exact M|]. split; [eexists; split; [left; reflexivity|reflexivity]|]. intros o (x & I & <-). cbn [In] in I. repeat (destruct I as [<-|I]); try destruct I; cbn; intuition discriminate.
Qed.
Lemma lone_fails : exists w', main (case_names false false) toy_lib case_digest case_secrets case_keygen false false false lone_start 1 w' /\
  plain_file (w_fs w') (num "me.pub") (utf8 case_public) /\ plain_file (w_fs w') (num "me") (utf8 (snd old_pair)) /\
  forall u, (exists b, plain_file (w_fs w') u b) -> u = num "me.pub" \/ u = num "me".
Proof.
  eexists. split.
  - exists (Err CComposite). eexists. split; [|split; reflexivity]. eapply bind_runs; [apply ui_runs; rewrite lone_parsed; reflexivity|]. rewrite lone_parsed. cbn [snd run_command].
    unfold generate_key_pair_files. eapply (bind_runs _ _ toy_cs); [split; reflexivity|]. eapply (bind_runs _ _ [CIo]); [|split; reflexivity]. cbn [generate_all].
    eapply (bind_runs _ _ (cs_keypair toy_cs [])); [split; [reflexivity|exists []; reflexivity]|]. destruct (cs_keypair toy_cs []) as [pk sk] eqn:Ek.
    assert (K : key_pair_texts case_digest pk sk = Ok (case_public, case_private)) by (pose proof (proj1 case_key_texts) as K; rewrite Ek in K; exact K).
    eapply (bind_runs _ _ (case_public, case_private)); [split; [symmetry; exact K|reflexivity]|]. clear pk sk Ek K.
    eapply bind_runs; [apply ui_runs; reflexivity|]. eapply bind_runs; [apply ui_runs; reflexivity|].
    eapply (bind_runs _ _ (Err CIo)).
    { apply try_runs; [|discriminate]. unfold write_pair. cbn [pair_streams k_public k_private].
      eapply bind_runs.
      - eapply bind_runs; [apply ui_runs; reflexivity|]. eapply (bind_runs _ _ (WriteNode 1)); [|apply write_text_works]. right. exists (num "me.pub"), 1. split; [reflexivity|]. split; [reflexivity|].
        split; [split; [reflexivity|intros t X; apply lone_files in X as [_ X]; discriminate X]|]. split; reflexivity.
      - eapply bind_runs; [apply ui_runs; reflexivity|]. right. left. exists CIo. split; [|reflexivity]. left. split; [reflexivity|]. split; [reflexivity|]. right.
        intros (s & i & Es & En & _). change (Some (num "me") = Some s) in Es. injection Es as <-. vm_compute in En. discriminate En. }
    eapply (bind_runs _ _ [CIo]); [eapply bind_runs; [apply ui_runs; vm_compute; reflexivity|split; reflexivity]|].
    eapply bind_runs; [apply ui_runs; vm_compute; reflexivity|]. eapply (bind_runs _ _ []); [split; reflexivity|]. split; reflexivity.
  - split; [exists 1; split; vm_compute; reflexivity|]. split; [exists 2; split; vm_compute; reflexivity|].
    intros u (b & i & E & _). match type of E with f_entries ?g u = _ => assert (X : f_entries g = f_entries pair_fs) by (vm_compute; reflexivity); rewrite X in E; clear X end.
    destruct (pair_files u i E) as [[-> _]|[-> _]]; auto.
Qed.

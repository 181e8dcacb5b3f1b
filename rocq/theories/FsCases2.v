(** More runs for the examples of PropFs and PropFs2: an aborted one, one with a file that is both output and input,
    whole programs, key generation, and stream mode. *)
From Coq.Strings Require Import Byte String.
From Coq Require Import List NArith ZArith Bool PeanoNat Lia.
From Verif Require Import Base BaseFacts Shamir Errors Io HeaderIo HeaderIoSpec HeaderIoProofs StreamSpec StreamCrypto Text Util CliErrors Getopts Crypto HeaderCrypto CredSpec FileCrypto FileProofs KeyFiles Ui UiSpec Paths PathSpec PathProofs CliCreds Cli CliSpec Progress Fs Commands FsSpec
  HeaderCryptoProofs4 HeaderPanics FsProofs ConvProofs FsProofs2 FsProofs4 FsProofs5 FsProofs6 FsProofs7 FsProofs8 FsProofs9 FsProofs10 FsProofs11 FsProofs12 FsProofs13 FsProofs14 FsProofs15 FsProofs16 FsProofs17 Proto ToyCrypto FsCases.
From Verif Require PropProgress.
Import ListNotations.
Local Open Scope N_scope.

(** ** Progress reporting aborts an encryption *)

Lemma case_output_nonempty b : ~ is_conversion toy_lib case_enc b [].
Proof.
  intros (er & src & room & fl & snk & Hr & _ & _ & C & E). cbn [conversion case_enc case_cred] in C. unfold encrypt_stream in C.
  change (encrypt_stream toy_lib case_opts er src (mkSink [] room fl false) (Ok tt) snk) in C.
  destruct (encrypt_header toy_lib case_opts er) as [[[ser cod] chunk]|e|] eqn:Eh.
  - destruct (encrypt_stream_ok toy_lib case_opts er ser cod chunk toy_lib_ok Hr Eh _ _ _ C) as (_ & Ho & _). rewrite <- E in Ho. discriminate Ho.
  - unfold encrypt_stream in C. rewrite Eh in C. destruct C as [C _]. discriminate C.
  - unfold encrypt_stream in C. rewrite Eh in C. destruct C as [C _]. discriminate C.
Qed.
Lemma case_abort : exists w', crypt_streams (case_names false true) toy_lib [case_stream "notes" "notes.rypt"] KeepFiles false case_enc case_world Panic w' /\
  plain_file (w_fs w') (num "notes.rypt") [] /\ w_refused w' = [].
Proof.
  set (E := case_names false true).
  destruct (conversion_total toy_lib toy_lib_ok case_enc some_random [RData case_data] (mkSink [] None true false) some_random_ok) as (r0 & snk & C).
  eexists. split; [|split].
  - right. right. split; [|reflexivity]. cbn [process]. right. right. split; [|reflexivity]. unfold step. right. right. split; [|reflexivity].
    unfold attempt. left. exists (Ok (ReadNode 1, WriteNode 3, Some (at_ "notes.rypt"))). eexists. split.
    { left. exists (Ok (ReadNode 1, WriteNode 3, Some (at_ "notes.rypt"))). split; [|split; [|reflexivity]]; [discriminate|]. left. exists tt. eexists. split; [split; reflexivity|]. left. exists (OFile (at_ "notes.rypt")). eexists. split; [split; reflexivity|].
      left. exists (ReadNode 1). eexists. split.
      - cbn [open_input case_stream s_input]. left. exists (ReadNode 1, mkMeta FRegular 1). eexists. split.
        + unfold open_file. left. exists (ReadNode 1). eexists. split; [split; [reflexivity|]; right; exists (num "notes"), (num "notes"); split; [reflexivity|]; split; [reflexivity|]; left; exists 1; split; reflexivity|].
          left. exists (mkMeta FRegular 1). eexists. split; [split; [reflexivity|]; right; exists (num "notes"), (mkMeta FRegular 1); repeat split; reflexivity|]. left. exists tt. eexists. split; split; reflexivity.
        + left. exists tt. eexists. split; [split; reflexivity|]. left. exists tt. eexists. split; [split; reflexivity|]. left. exists tt. eexists. split; split; reflexivity.
      - left. exists (WriteNode 3). eexists. split; [|split; reflexivity]. right. exists (num "notes.rypt"), 3. split; [reflexivity|]. split; [reflexivity|].
        split; [split; [reflexivity|intros t X; apply case_files in X as [[_ X]|[_ X]]; discriminate X]|]. split; reflexivity. }
    cbn iota. right. right. split; [|reflexivity]. right. split; [|reflexivity].
    exists some_random, [RData case_data], None, true, r0, snk, O. split; [apply some_random_ok|]. split; [intros _; split; reflexivity|].
    refine (conj _ (conj C _)).
    { cbn [provides]. intros _ _. vm_compute. reflexivity. }
    right. split; [reflexivity|]. split.
    + exists 5, (Some 0), [(1200000005, 0)]. split; [|exact PropProgress.C44_refuted_case]. split; [vm_compute; discriminate|]. split; [intros s X; discriminate X|intros X; discriminate X].
    + exists []. split; [exists (w_out snk); reflexivity|reflexivity].
  - exists 3. split; reflexivity.
  - reflexivity.
Qed.

(** ** A file that is both output and input *)

Definition case_chain : list io_stream := [case_stream "notes" "notes.rypt"; case_stream "notes.rypt" "notes.rypt.rypt"].
Lemma case_chained : exists w',
  crypt_streams (case_names false false) toy_lib case_chain DeleteFiles false case_enc case_world (Ok tt) w' /\
  f_entries (w_fs w') (num "notes") = None /\ f_entries (w_fs w') (num "notes.rypt") = None.
Proof.
  set (E := case_names false false).
  destruct (total_crypt E toy_lib toy_lib_ok case_chain DeleteFiles false case_enc case_world case_spacious) as ((r & w' & H) & _).
  assert (P : forall rp w1, process E toy_lib 0 2 case_chain false case_enc case_world rp w1 -> rp = Ok ([at_ "notes"; at_ "notes.rypt"], []) /\
    (exists b, plain_file (w_fs w1) (num "notes") b) /\ exists b, plain_file (w_fs w1) (num "notes.rypt") b).
  { clear H. intros rp w1 H. unfold case_chain in H. cbn [process] in H.
    assert (Pr : forall w0 ru wu, works (w_ui w0) -> io_ui (ui_println 0 []) w0 ru wu -> ru = Ok tt /\ w_fs wu = w_fs w0 /\ works (w_ui wu)).
    { intros w0 ru wu Wk [-> ->]. destruct (println_works [] _ Wk) as [E1 E2]. auto. }
    assert (S1 : forall rs ws, step E toy_lib 0 2 (case_stream "notes" "notes.rypt") false case_enc case_world rs ws ->
      rs = Ok ([at_ "notes"], []) /\ works (w_ui ws) /\ exists i out, fresh case_fs (num "notes.rypt") i /\ created case_fs (num "notes.rypt") i out (w_fs ws)).
    { intros rs ws K. pose proof (sim_works _ _ _ _ (sim_step E toy_lib _ case_enc) K eq_refl) as Wk.
      assert (U : exists i, unused (w_fs case_world) i) by (destruct (case_spacious []) as (i & U & _); eauto).
      destruct (step_ready E toy_lib toy_lib_ok eq_refl (case_stream "notes" "notes.rypt") case_enc _ _ _ (at_ "notes") (num "notes") case_data (at_ "notes.rypt") (num "notes.rypt") eq_refl eq_refl (case_plain : plain_file (w_fs case_world) _ _) (case_convertible _) eq_refl eq_refl eq_refl U K) as [[_ X]|(-> & i & out & F & C & _)]; [discriminate X|].
      split; [reflexivity|]. split; [exact Wk|]. exists i, out. auto. }
    destruct H as [([c0 e0] & w2 & H1 & H)|[(e & H1 & _)|(H1 & _)]]; destruct (S1 _ _ H1) as (X & Wk & i & out & F & C); try discriminate X. injection X as -> ->. clear S1 H1.
    destruct H as [(u & w3 & H1 & H)|[(e & H1 & _)|(H1 & _)]]; destruct (Pr _ _ _ Wk H1) as (X & Q & Wk3); try discriminate X. clear H1 Wk X. rewrite <- Q in C. clear Q w2.
    assert (Pn : plain_file (w_fs w3) (num "notes") case_data) by (eapply plain_extends; [exact case_plain|eapply created_extends; eassumption]).
    assert (Pr2 : plain_file (w_fs w3) (num "notes.rypt") out) by (eapply created_plain, C).
    assert (Nn : f_entries (w_fs w3) (num "notes.rypt.rypt") = None) by (rewrite (proj1 C); reflexivity).
    pose proof (spacious_created _ _ _ _ _ case_spacious C) as Sp3. assert (U : exists i, unused (w_fs w3) i) by (destruct (Sp3 []) as (j & U & _); eauto).
    assert (S2 : forall rs ws, step E toy_lib 1 2 (case_stream "notes.rypt" "notes.rypt.rypt") false case_enc w3 rs ws ->
      rs = Ok ([at_ "notes.rypt"], []) /\ works (w_ui ws) /\ extends (w_fs w3) (w_fs ws)).
    { intros rs ws K. pose proof (sim_works _ _ _ _ (sim_step E toy_lib _ case_enc) K Wk3) as Wk.
      destruct (step_ready E toy_lib toy_lib_ok eq_refl (case_stream "notes.rypt" "notes.rypt.rypt") case_enc _ _ _ (at_ "notes.rypt") (num "notes.rypt") out (at_ "notes.rypt.rypt") (num "notes.rypt.rypt") eq_refl eq_refl Pr2 (case_convertible _) eq_refl eq_refl Nn U K) as [[_ X]|(-> & j & out' & F' & C' & _)]; [discriminate X|].
      split; [reflexivity|]. split; [exact Wk|]. eapply created_extends; eassumption. }
    assert (T : forall rt wt, process E toy_lib 1 2 [case_stream "notes.rypt" "notes.rypt.rypt"] false case_enc w3 rt wt -> rt = Ok ([at_ "notes.rypt"], []) /\ extends (w_fs w3) (w_fs wt)).
    { clear H. intros rt wt H. cbn [process] in H.
      destruct H as [([c0 e0] & w2 & H1 & H)|[(e & H1 & _)|(H1 & _)]]; destruct (S2 _ _ H1) as (X & Wk & Ex); try discriminate X. injection X as -> ->.
      destruct H as [(x & w4 & H2 & H)|[(e & H2 & _)|(H2 & _)]]; destruct (Pr _ _ _ Wk H2) as (X & Q & _); try discriminate X.
      destruct H as [([c1 e1] & w5 & [X' ->] & [-> ->])|[(e & [X' _] & _)|([X' _] & _)]]; try discriminate X'. injection X' as -> ->. split; [reflexivity|]. rewrite Q. exact Ex. }
    destruct H as [([c1 e1] & w4 & H1 & [-> ->])|[(e & H1 & _)|(H1 & _)]]; destruct (T _ _ H1) as (X & Ex); try discriminate X. injection X as -> ->.
    split; [reflexivity|]. split; eexists; (eapply plain_extends; [|exact Ex]); eassumption. }
  destruct (delete_inv _ _ _ _ _ _ _ _ H) as (rp & w1 & Hp & K). destruct (P _ _ Hp) as (-> & (b1 & P1) & (b2 & P2)).
  destruct K as [(e & X & _)|[(X & _)|(cbs & errs & X & r2 & Hr)]]; try discriminate X. injection X as <- <-.
  destruct (remove_all_ready E eq_refl _ _ _ _ _ Hr) as [Q _].
  { intros p s [<-|[<-|[]]] Es Ed.
    - assert (s = num "notes") as -> by (vm_compute in Es; injection Es as <-; reflexivity). destruct P1 as (i & P1 & _). congruence.
    - assert (s = num "notes.rypt") as -> by (vm_compute in Es; injection Es as <-; reflexivity). destruct P2 as (i & P2 & _). congruence. }
  exists w'. split; [|split].
  - assert (r = Ok tt) as <-; [|exact H]. destruct r as [[]|e|]; [reflexivity| |].
    + destruct (crypt_inv _ _ _ _ _ _ _ _ _ H) as (rp & w2 & Hp' & K). destruct (P _ _ Hp') as (-> & _).
      destruct K as [(e' & X & _)|[(X & _)|(cbs & errs & X & K)]]; try discriminate X. injection X as <- <-.
      destruct K as [(_ & [K|(K & _)])|(w4 & _ & _ & _ & K)]; discriminate K.
    + exfalso. eapply case_enc_calm; [|exact H]. intros st [<-|[<-|[]]]; split; discriminate.
  - apply (Q (at_ "notes")); [left|]; reflexivity.
  - apply (Q (at_ "notes.rypt")); [right; left|]; reflexivity.
Qed.

(** ** Whole programs *)

Definition case_start : world := set_ui case_world (mkUi (Some []) false false 0 false None []).
Definition case_secrets (f : text) : option bytes := if text_eqb f (lit "pw") then Some [x70; x0a] else None.
Definition case_digest (b : bytes) : bytes := repeat x00 64.
(** rypt --password-file pw --discard-inputs notes *)
Definition case_command : list text := map lit ["--password-file"; "pw"; "--discard-inputs"; "notes"]%string.
Lemma case_parsed : parse_command_line case_digest case_secrets case_command false false false (w_ui case_start) = (Ok (CryptStreams [case_stream "notes" "notes.rypt"] DeleteFiles false case_enc), case_ui).
Proof. vm_compute. reflexivity. Qed.
Lemma case_program : exists w',
  main (case_names false false) toy_lib case_digest case_secrets case_command false false false case_start 0 w' /\
  has_conversion (case_names false false) toy_lib case_enc case_data (w_fs w') (at_ "notes.rypt") /\ f_entries (w_fs w') (num "notes") = None.
Proof.
  destruct (case_one DeleteFiles) as (w' & H & C & D); [discriminate|]. exists w'. split; [|auto].
  exists (Ok tt), w'. split; [|auto]. left. exists (CryptStreams [case_stream "notes" "notes.rypt"] DeleteFiles false case_enc), case_world.
  split; [|exact H]. split; [rewrite case_parsed; reflexivity..].
Qed.
Lemma case_not_forced : ~ asked case_command OForce.
Proof.
  intros (a & I & [E|(c & Ec & K)]).
  - subst a. repeat (destruct I as [I|I]; [vm_compute in I; discriminate I|]). destruct I.
  - vm_compute in Ec. injection Ec as <-. repeat (destruct I as [<-|I]; [destruct K as [K|(x & l & E & D & K)];
      [vm_compute in K; discriminate K|vm_compute in E; first [discriminate E|injection E as <- <-; contradiction D; reflexivity]]|]). destruct I.
Qed.
(** rypt -g me *)
Definition case_keygen : list text := map lit ["-g"; "me"]%string.
Definition case_pair : key_streams := mkKeyStreams (Some (at_ "me.pub")) (OFile (at_ "me")).
Lemma case_keygen_parsed : parse_command_line case_digest case_secrets case_keygen false false false (w_ui case_start) = (Ok (GenerateKeyPair [case_pair] false), w_ui case_start).
Proof. vm_compute. reflexivity. Qed.
Lemma case_free b b' : free_names (case_names b b') case_fs (flat_map key_files [case_pair]).
Proof.
  exists [num "me.pub"; num "me"]. split; [reflexivity|]. split.
  - constructor; [intros [X|[]]; vm_compute in X; discriminate X|]. constructor; [intros []|constructor].
  - intros t [<-|[<-|[]]]; reflexivity.
Qed.
Lemma case_generated : exists w', generate_key_pair_files (case_names false false) toy_lib case_digest [case_pair] false case_world (Ok tt) w'.
Proof.
  destruct (total_generate (case_names false false) toy_lib case_digest [case_pair] false case_world case_spacious) as ((r & w' & H) & _).
  assert (r = Ok tt) as ->; [|eauto]. eapply (generate_ready (case_names false false) toy_lib case_digest toy_lib_ok eq_refl); [exact H|discriminate|reflexivity|exact case_spacious|apply case_free].
Qed.

(** rypt -f -g me.pub *)
Definition case_keygen_forced : list text := map lit ["-f"; "-g"; "me.pub"]%string.
Definition case_same : key_streams := mkKeyStreams (Some (at_ "me.pub")) (OFile (at_ "me.pub")).
Lemma case_forced_parsed : parse_command_line case_digest case_secrets case_keygen_forced false false false (w_ui case_start) = (Ok (GenerateKeyPair [case_same] true), w_ui case_start).
Proof. vm_compute. reflexivity. Qed.
Lemma write_text_works E wr t w : write_text E wr t w (Ok tt) (write_out wr (utf8 t) w).
Proof. left. split; reflexivity. Qed.
Lemma bind_runs {A B} (m : io A) (f : A -> io B) a w w1 r w2 : m w (Ok a) w1 -> f a w1 r w2 -> io_bind m f w r w2.
Proof. intros H K. left. eauto. Qed.
Lemma ui_runs {A} (m : act A) a w : fst (m (w_ui w)) = Ok a -> io_ui m w (Ok a) (set_ui w (snd (m (w_ui w)))).
Proof. intros E. split; congruence. Qed.
Definition case_public : text := match key_pair_texts case_digest (fst (cs_keypair toy_cs [])) (snd (cs_keypair toy_cs [])) with Ok (t, _) => t | _ => [] end.
Definition case_private : text := match key_pair_texts case_digest (fst (cs_keypair toy_cs [])) (snd (cs_keypair toy_cs [])) with Ok (_, t) => t | _ => [] end.
Lemma case_key_texts : key_pair_texts case_digest (fst (cs_keypair toy_cs [])) (snd (cs_keypair toy_cs [])) = Ok (case_public, case_private) /\ utf8 case_public <> utf8 case_private.
Proof. split; [vm_compute; reflexivity|]. vm_compute. discriminate. Qed.
Lemma case_overwritten : exists w',
  main (case_names false false) toy_lib case_digest case_secrets case_keygen_forced false false false case_start 0 w' /\
  plain_file (w_fs w') (num "me.pub") (utf8 case_private) /\ In (Printed (MLine (lit "    Public key: " ++ trim case_public))) (u_trace (w_ui w')).
Proof.
  eexists. split.
  - exists (Ok tt). eexists. split; [|split; reflexivity]. eapply bind_runs; [apply ui_runs; rewrite case_forced_parsed; reflexivity|]. rewrite case_forced_parsed. cbn [snd run_command].
    unfold generate_key_pair_files. eapply (bind_runs _ _ toy_cs); [split; reflexivity|]. eapply (bind_runs _ _ []); [|split; reflexivity]. cbn [generate_all].
    eapply (bind_runs _ _ (cs_keypair toy_cs [])); [split; [reflexivity|exists []; reflexivity]|]. destruct (cs_keypair toy_cs []) as [pk sk] eqn:Ek.
    assert (K : key_pair_texts case_digest pk sk = Ok (case_public, case_private)) by (pose proof (proj1 case_key_texts) as K; rewrite Ek in K; exact K).
    eapply (bind_runs _ _ (case_public, case_private)); [split; [symmetry; exact K|reflexivity]|]. clear pk sk Ek K.
    eapply bind_runs; [apply ui_runs; reflexivity|]. eapply bind_runs; [apply ui_runs; reflexivity|].
    eapply (bind_runs _ _ (Ok tt)).
    { left. exists (Ok tt). split; [discriminate|]. split; [|reflexivity]. unfold write_pair. cbn [case_same k_public k_private].
      eapply bind_runs.
      - eapply bind_runs; [apply ui_runs; reflexivity|]. eapply (bind_runs _ _ (WriteNode 3)); [|apply write_text_works]. right. exists (num "me.pub"), (num "me.pub"), 3. split; [reflexivity|]. split; [reflexivity|]. split; [reflexivity|].
        left. split; [reflexivity|]. split; [|reflexivity]. split; [reflexivity|intros t X; apply case_files in X as [[_ X]|[_ X]]; discriminate X].
      - eapply bind_runs; [apply ui_runs; reflexivity|]. eapply (bind_runs _ _ (WriteNode 3)); [|apply write_text_works]. right. exists (num "me.pub"), (num "me.pub"), 3. split; [reflexivity|]. split; [vm_compute; reflexivity|]. split; [reflexivity|].
        right. exists (mkNode true (utf8 case_public) 1). split; [vm_compute; reflexivity|]. split; [vm_compute; reflexivity|]. reflexivity. }
    eapply bind_runs; [split; reflexivity|]. eapply bind_runs; [apply ui_runs; vm_compute; reflexivity|]. eapply (bind_runs _ _ []); [split; reflexivity|]. split; reflexivity.
  - split; [exists 3; split; vm_compute; reflexivity|]. vm_compute. right. left. reflexivity.
Qed.

(** ** Stream mode through a link *)

Definition case_through_link : list io_stream := [mkStream (IFileStream (at_ "link")) (Ok OStdout)].
Lemma case_readable b b' : readable (case_names b b') case_fs case_ui (IFileStream (at_ "link")) case_data.
Proof. exists (num "link"), (num "notes"), 1, (mkNode true case_data 1). repeat split; reflexivity. Qed.
Lemma case_streamed policy : exists w', crypt_streams (case_names false false) toy_lib case_through_link policy false case_enc case_world (Ok tt) w'.
Proof.
  destruct (total_crypt (case_names false false) toy_lib toy_lib_ok case_through_link policy false case_enc case_world case_spacious) as ((r & w' & H) & _).
  assert (r = Ok tt) as ->; [|eauto]. eapply (stream_ready (case_names false false) toy_lib eq_refl eq_refl); [|exact H|reflexivity|apply case_readable|apply case_convertible]. discriminate.
Qed.

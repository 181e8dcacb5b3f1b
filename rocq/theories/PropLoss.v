(** C72: what a loss of power leaves.

    Vocabulary: [left_after_loss] (LossSpec); [moments], [intact], [deletion_requested], [plain_file], [converts],
    [has_conversion] (FsSpec). *)
From Coq.Strings Require Import Byte String.
From Coq Require Import List NArith ZArith Bool PeanoNat Lia.
From Verif Require Import Base BaseFacts Shamir Errors Io HeaderIoSpec StreamSpec Text Util CliErrors Getopts Crypto HeaderCrypto CredSpec FileCrypto FileProofs KeyFiles Ui UiSpec Paths Cli Fs Commands FsSpec
  FsProofs FsProofs10 ToyCrypto FsCases FsCases2 PropFs LossSpec.
Import ListNotations.
Local Open Scope N_scope.

(** What is intact at all moments is intact after a loss of power. *)
Lemma always_intact f0 ms f s : (forall g, In g ms -> intact f0 g s) -> left_after_loss f0 ms f -> intact f0 f s.
Proof.
  intros H [HE HN]. assert (A : forall g, In g (f0 :: ms) -> intact f0 g s) by (intros g [<-|I]; [split; auto|auto]). split.
  - destruct (HE s) as (g & I & ->). apply A, I.
  - intros i Es. assert (B : forall g, In g (f0 :: ms) -> f_nodes g i = f_nodes f0 i) by (intros g I; exact (proj2 (A g I) i Es)).
    destruct (HN i) as [(g & I & ->)|(g1 & g2 & I1 & I2 & D)]; [exact (B g I)|]. destruct D. rewrite (B g1 I1), (B g2 I2). reflexivity.
Qed.

(** Without force, and unless the removal of originals was requested, everything that was there before the run is there
    after a loss of power at any time, with whatever was written by then. *)
Theorem C72_existing_files_survive : forall entry_of lib streams policy d w r w' ms f,
  lib_ok lib -> wf_fs (w_fs w) -> w_past w = [] -> crypt_streams entry_of lib streams policy false d w r w' ->
  ~ deletion_requested policy w w' -> incl ms (moments w') -> left_after_loss (w_fs w) ms f ->
  forall s, f_entries (w_fs w) s <> None -> intact (w_fs w) f s.
Proof.
  intros entry_of lib streams policy d w r w' ms f Hl W P H Nd Im L s Ns. apply (always_intact _ ms); [|exact L].
  intros g I. exact (C47_files_are_kept_unless_requested entry_of lib streams policy d w r w' Hl W P H Nd g s (Im g I) Ns).
Qed.
Print Assumptions C72_existing_files_survive.

(** If it was requested, still everything survives but the inputs that had been converted. *)
Theorem C72_other_files_survive : forall entry_of lib streams policy d w r w' ms f,
  lib_ok lib -> wf_fs (w_fs w) -> w_past w = [] -> file_to_file streams -> crypt_streams entry_of lib streams policy false d w r w' ->
  incl ms (moments w') -> left_after_loss (w_fs w) ms f ->
  forall s, f_entries (w_fs w) s <> None ->
  intact (w_fs w) f s \/
  exists st q b g, In st streams /\ converts entry_of st s q /\ plain_file (w_fs w) s b /\ In g (moments w') /\ has_conversion entry_of lib d b g q.
Proof.
  intros entry_of lib streams policy d w r w' ms f Hl W P F H Im L s Ns.
  assert (K : (forall g, In g ms -> intact (w_fs w) g s) \/
    exists st q b g, In st streams /\ converts entry_of st s q /\ plain_file (w_fs w) s b /\ In g (moments w') /\ has_conversion entry_of lib d b g q).
  { clear L. induction ms as [|g ms IH]; [left; intros g []|]. destruct IH as [IH|IH]; [intros g' I; apply Im; right; exact I| |right; exact IH].
    destruct (C28_existing_files_survive entry_of lib streams policy d w r w' Hl W P F H g s (Im g (or_introl eq_refl)) Ns) as [K|(_ & _ & K)]; [|right; exact K].
    left. intros g' [<-|I]; [exact K|exact (IH g' I)]. }
  destruct K as [K|K]; [left|right; exact K]. exact (always_intact _ ms f s K L).
Qed.
Print Assumptions C72_other_files_survive.

(** The same for new key pairs. *)
Theorem C72_key_pairs : forall entry_of lib sha512 streams w r w' ms f,
  w_past w = [] -> generate_key_pair_files entry_of lib sha512 streams false w r w' ->
  incl ms (moments w') -> left_after_loss (w_fs w) ms f ->
  forall s, f_entries (w_fs w) s <> None -> intact (w_fs w) f s.
Proof.
  intros entry_of lib sha512 streams w r w' ms f P H Im L s Ns. apply (always_intact _ ms); [|exact L].
  intros g I. exact (C42_existing_files_survive entry_of lib sha512 streams w r w' P H g s (Im g I) Ns).
Qed.
Print Assumptions C72_key_pairs.

(** The same for the whole program and all command lines on which force is not asked for. *)
Theorem C72_command_lines : forall entry_of lib sha512 files args stdin_is_tty stdout_is_tty stderr_is_tty w status w' ms f,
  lib_ok lib -> wf_fs (w_fs w) -> w_past w = [] -> ~ asked args OForce ->
  main entry_of lib sha512 files args stdin_is_tty stdout_is_tty stderr_is_tty w status w' ->
  incl ms (moments w') -> left_after_loss (w_fs w) ms f ->
  forall s, f_entries (w_fs w) s <> None ->
  intact (w_fs w) f s \/
  exists streams policy d u st q b g,
     parse_command_line sha512 files args stdin_is_tty stdout_is_tty stderr_is_tty (w_ui w) = (Ok (CryptStreams streams policy false d), u) /\
     (policy = DeleteFiles -> asked args ODiscardInputs) /\ deletion_requested policy (set_ui w u) w' /\
     In st streams /\ converts entry_of st s q /\ plain_file (w_fs w) s b /\ In g (moments w') /\ has_conversion entry_of lib d b g q.
Proof.
  intros entry_of lib sha512 files args ti to te w status w' ms f Hl W P Nf H Im L s Ns.
  match goal with |- _ \/ ?R => assert (K : (forall g, In g ms -> intact (w_fs w) g s) \/ R) end.
  { clear L. induction ms as [|g ms IH]; [left; intros g []|]. destruct IH as [IH|IH]; [intros g' I; apply Im; right; exact I| |right; exact IH].
    destruct (C28_command_lines entry_of lib sha512 files args ti to te w status w' Hl W P Nf H g s (Im g (or_introl eq_refl)) Ns) as [K|(_ & K)]; [|right; exact K].
    left. intros g' [<-|I]; [exact K|exact (IH g' I)]. }
  destruct K as [K|K]; [left|right; exact K]. exact (always_intact _ ms f s K L).
Qed.
Print Assumptions C72_command_lines.

(** After a run that ended successfully, everything but the names of new files may be lost. *)
Definition emptied (f : fs) : fs := mkFs (f_entries f)
  (fun i => match f_nodes f i with Some n => if bytes_eqb (n_content n) case_data || bytes_eqb (n_content n) case_junk then Some n else Some (mkNode true [] (n_links n)) | None => None end).

Lemma emptied_left f0 ms f : In f ms -> f_nodes f0 = f_nodes case_fs -> left_after_loss f0 ms (emptied f).
Proof.
  intros I E0. split.
  - intros s. exists f. split; [right; exact I|reflexivity].
  - intros i. cbn [emptied f_nodes]. destruct (f_nodes f i) as [n|] eqn:E; [|left; exists f; split; [right; exact I|congruence]].
    destruct (bytes_eqb (n_content n) case_data || bytes_eqb (n_content n) case_junk) eqn:Ei; [left; exists f; split; [right; exact I|congruence]|].
    right. exists f, f0. split; [right; exact I|]. split; [left; reflexivity|]. rewrite E, E0. cbn [case_fs f_nodes].
    apply orb_false_iff in Ei as [X1 X2]. destruct (i =? 1); [|destruct (i =? 2); [|discriminate]]; intros [= ->]; discriminate.
Qed.

Example C72_case : exists w', crypt_streams (case_names false false) toy_lib [case_stream "notes" "notes.rypt"] KeepFiles false case_enc case_world (Ok tt) w' /\
  ~ deletion_requested KeepFiles case_world w' /\ incl (moments w') (moments w') /\ left_after_loss (w_fs case_world) (moments w') (emptied (w_fs w')) /\
  f_entries (w_fs case_world) (num "notes") <> None.
Proof.
  destruct (case_one KeepFiles) as (w' & H & _); [discriminate|]. exists w'. split; [exact H|]. split; [intros [X|[X _]]; discriminate X|].
  split; [intros g I; exact I|]. split; [apply emptied_left; [left; reflexivity|reflexivity]|discriminate].
Qed.

Lemma encrypted_starts b c : is_conversion toy_lib case_enc b c -> exists rest, c = x72 :: rest.
Proof.
  intros (er & src & room & fl & snk & Hr & _ & _ & C & E). cbn [conversion case_enc case_cred] in C.
  change (encrypt_stream toy_lib case_opts er src (mkSink [] room fl false) (Ok tt) snk) in C.
  destruct (encrypt_header toy_lib case_opts er) as [[[ser cod] chunk]|e|] eqn:Eh.
  2,3: unfold encrypt_stream in C; rewrite Eh in C; destruct C as [C _]; discriminate C.
  destruct (encrypt_stream_ok toy_lib case_opts er ser cod chunk toy_lib_ok Hr Eh _ _ _ C) as (_ & Ho & _). rewrite <- E in Ho.
  eexists. exact Ho.
Qed.

(** rypt --discard-inputs notes reports success; after a loss of power the original is gone and the encrypted file is
    empty.  (C30 promises one of them at every moment, but only if the disk has what was written.) *)
Theorem C72_original_or_conversion_refuted : exists entry_of lib streams d w w' f s q,
  lib_ok lib /\ wf_fs (w_fs w) /\ w_past w = [] /\ file_to_file streams /\ separate entry_of streams /\
  crypt_streams entry_of lib streams DeleteFiles false d w (Ok tt) w' /\
  left_after_loss (w_fs w) (moments w') f /\
  plain_file (w_fs w) s case_data /\ (exists st, In st streams /\ converts entry_of st s q) /\
  f_entries f s = None /\ forall t b c, entry_of q = Some t -> plain_file f t c -> ~ is_conversion lib d b c.
Proof.
  destruct (case_one DeleteFiles) as (w' & H & _ & D); [discriminate|].
  exists (case_names false false), toy_lib, [case_stream "notes" "notes.rypt"], case_enc, case_world, w', (emptied (w_fs w')), (num "notes"), (at_ "notes.rypt").
  split; [exact toy_lib_ok|]. split; [exact case_wf_fs|]. split; [reflexivity|]. split; [intros st p [<-|[]] _; discriminate|]. split.
  { intros st st' p q s [<-|[]] [<-|[]] [= <-] [= <-] E E'. vm_compute in E, E'. congruence. }
  split; [exact H|]. split; [apply emptied_left; [left; reflexivity|reflexivity]|]. split; [exact case_plain|].
  split; [exists (case_stream "notes" "notes.rypt"); split; [left; reflexivity|]; exists (at_ "notes"); split; [reflexivity|]; split; reflexivity|].
  split; [exact (D eq_refl)|]. intros t b c Et (i & Ei & En) Ic. apply encrypted_starts in Ic as (rest & ->).
  cbn [emptied f_nodes f_entries] in En, Ei. destruct (f_nodes (w_fs w') i) as [n|] eqn:E; [|discriminate En].
  destruct (bytes_eqb (n_content n) case_data || bytes_eqb (n_content n) case_junk) eqn:E12; [|discriminate En].
  injection En as ->. cbn [n_content] in E12. apply orb_true_iff in E12 as [X|X]; discriminate X.
Qed.
Print Assumptions C72_original_or_conversion_refuted.

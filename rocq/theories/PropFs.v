(** C28 to C32, C42, C47, C54, C55: what commands do to files.

    Vocabulary: a world [w] has the present file system [w_fs w] and all earlier ones, so [moments w'] are the states in
    which a run that ended in [w'] could have been interrupted (Fs, FsSpec); [crypt_streams], [generate_key_pair_files]
    and [main] relate a world to the results and worlds a command can end with (Commands); [intact], [plain_file],
    [has_conversion], [separate], [distinct_outputs], [file_to_file], [deletion_requested], [asked] are in FsSpec.
    [w_refused w'] are the entries whose removal the operating system refused. *)
From Coq.Strings Require Import Byte String.
From Coq Require Import List NArith ZArith Bool PeanoNat Lia.
From Verif Require Import Base BaseFacts Shamir Errors Io HeaderIoSpec StreamSpec Text Util CliErrors Getopts Crypto HeaderCrypto CredSpec FileCrypto KeyFiles Ui UiSpec Paths Cli Progress Fs Commands FsSpec
  FsProofs FsProofs2 FsProofs4 FsProofs5 FsProofs6 FsProofs7 FsProofs8 FsProofs9 FsProofs10 ToyCrypto FsCases FsCases2.
Import ListNotations.
Local Open Scope N_scope.

(** ** C28 *)

(** Whatever fails and whenever it is interrupted, a run without force leaves what was there as it was, unless its
    removal was requested and it was an input that had been converted. *)
Theorem C28_existing_files_survive : forall entry_of lib streams policy d w r w',
  lib_ok lib -> wf_fs (w_fs w) -> w_past w = [] -> file_to_file streams ->
  crypt_streams entry_of lib streams policy false d w r w' ->
  forall g s, In g (moments w') -> f_entries (w_fs w) s <> None ->
  intact (w_fs w) g s \/
  (deletion_requested policy w w' /\ f_entries g s = None /\
   exists st q b f, In st streams /\ converts entry_of st s q /\ plain_file (w_fs w) s b /\ In f (moments w') /\ has_conversion entry_of lib d b f q).
Proof.
  intros entry_of lib streams policy d w r w' Hl W P F H g s Ig Ns.
  destruct (existing_files entry_of lib Hl _ _ _ _ _ _ H W P g s Ig Ns) as [K|(D & N & st & p & b & I & Ei & Es & Pl & [Eo|(q & Eo & (f & If & C) & _)])]; [auto| |].
  - destruct (F st p I Ei Eo).
  - right. split; [exact D|]. split; [exact N|]. exists st, q, b, f. split; [exact I|]. split; [exists p; auto|]. auto.
Qed.
Print Assumptions C28_existing_files_survive.

(** Encrypting a link and a file, and removing the files: the link is refused and stays. *)
Example C28_case : lib_ok toy_lib /\ wf_fs (w_fs case_world) /\ w_past case_world = [] /\ file_to_file case_both /\ f_entries (w_fs case_world) (num "link") <> None /\
  exists w', crypt_streams (case_names false false) toy_lib case_both DeleteFiles false case_enc case_world (Err CComposite) w' /\ f_entries (w_fs w') (num "link") = Some (ELink (Some (num "notes"))).
Proof.
  split; [exact toy_lib_ok|]. split; [exact case_wf_fs|]. split; [reflexivity|]. split; [intros st p [<-|[<-|[]]] _; discriminate|]. split; [discriminate|].
  destruct case_two as (w' & H & _ & L & _). exists w'. split; [exact H|exact L].
Qed.

(** The same for the whole program and all command lines on which force is not asked for. *)
Theorem C28_command_lines : forall entry_of lib sha512 files args stdin_is_tty stdout_is_tty stderr_is_tty w status w',
  lib_ok lib -> wf_fs (w_fs w) -> w_past w = [] -> ~ asked args OForce ->
  main entry_of lib sha512 files args stdin_is_tty stdout_is_tty stderr_is_tty w status w' ->
  forall g s, In g (moments w') -> f_entries (w_fs w) s <> None ->
  intact (w_fs w) g s \/
  (f_entries g s = None /\ exists streams policy d u st q b f,
     parse_command_line sha512 files args stdin_is_tty stdout_is_tty stderr_is_tty (w_ui w) = (Ok (CryptStreams streams policy false d), u) /\
     (policy = DeleteFiles -> asked args ODiscardInputs) /\ deletion_requested policy (set_ui w u) w' /\
     In st streams /\ converts entry_of st s q /\ plain_file (w_fs w) s b /\ In f (moments w') /\ has_conversion entry_of lib d b f q).
Proof.
  intros entry_of lib sha512 files args ti to te w status w' Hl W P Nf H g s Ig Ns.
  destruct (main_inv _ _ _ _ _ _ _ _ _ _ _ H) as (rc & u1 & Ep & [(_ & Q & _)|(c & r & w1 & -> & H1 & Q & _ & L & _)]).
  - left. rewrite (moments_same _ _ Q) in Ig. unfold moments in Ig. rewrite P in Ig. destruct Ig as [<-|[]]. split; auto.
  - rewrite (moments_same _ _ Q) in Ig. set (w0 := set_ui w u1) in *. destruct c as [streams policy force d|streams force| |]; cbn [run_command] in H1.
    + destruct (crypt_options _ _ _ _ _ _ _ _ _ _ _ _ Ep) as (F & Fo & De & _). destruct force; [destruct (Nf (Fo eq_refl))|].
      destruct (C28_existing_files_survive entry_of lib streams policy d w0 r w1 Hl W P F H1 g s Ig Ns) as [K|(D & N & st & q & b & f & K1 & K2 & K3 & K4 & K5)]; [auto|].
      right. split; [exact N|]. exists streams, policy, d, u1, st, q, b, f. split; [exact Ep|]. split; [exact De|]. rewrite (moments_same _ _ Q).
      split; [|auto]. destruct D as [D|(D & before & reply & after & Et & Y)]; [left; exact D|]. right. split; [exact D|]. destruct L as [l L].
      exists before, reply, (after ++ l). split; [|exact Y]. rewrite L, Et. rewrite <- !app_assoc. cbn [app]. rewrite <- ?app_assoc. reflexivity.
    + left. assert (force = false) as ->.
      { destruct force; [|reflexivity]. exfalso. apply Nf. eapply keypair_force, Ep. }
      destruct (generate_spec _ _ _ _ _ _ _ H1) as [Qw|(cs & _ & K & _)].
      * rewrite (moments_same _ _ Qw) in Ig. unfold moments in Ig. change (w_past w0) with (w_past w) in Ig. rewrite P in Ig. destruct Ig as [<-|[]]. split; auto.
      * destruct (wr_moments _ _ _ K g Ig) as [I|[E _]]; [|apply E, Ns]. unfold moments in I. change (w_past w0) with (w_past w) in I. rewrite P in I. destruct I as [<-|[]]. split; auto.
    + left. destruct H1 as (out & -> & _). unfold moments in Ig. change (w_past _) with (w_past w) in Ig. rewrite P in Ig. destruct Ig as [<-|[]]. split; auto.
    + left. destruct H1 as (out & -> & _). unfold moments in Ig. change (w_past _) with (w_past w) in Ig. rewrite P in Ig. destruct Ig as [<-|[]]. split; auto.
Qed.
Print Assumptions C28_command_lines.

Example C28_command_case : ~ asked case_command OForce /\ wf_fs (w_fs case_start) /\ w_past case_start = [] /\ exists w',
  main (case_names false false) toy_lib case_digest case_secrets case_command false false false case_start 0 w' /\ f_entries (w_fs w') (num "notes") = None.
Proof.
  split; [exact case_not_forced|]. split; [exact case_wf_fs|]. split; [reflexivity|]. destruct case_program as (w' & H & _ & D). exists w'. split; [exact H|exact D].
Qed.

(** ** C29 *)

(** After a run, also one that reports errors, every new file is the complete conversion of a content that its input
    had during the run; but for those whose removal was refused. *)
Theorem C29_failed_conversions_leave_nothing : forall entry_of lib streams policy d w r w',
  lib_ok lib -> wf_fs (w_fs w) -> crypt_streams entry_of lib streams policy false d w r w' -> r <> Panic ->
  forall t, f_entries (w_fs w') t <> None -> f_entries (w_fs w) t = None -> ~ In t (w_refused w') ->
  exists st q b, In st streams /\ s_output st = Ok (OFile q) /\ entry_of q = Some t /\ has_conversion entry_of lib d b (w_fs w') q /\
    forall p, s_input st = IFile p -> exists s f, entry_of p = Some s /\ In f (moments w') /\ plain_file f s b.
Proof.
  intros entry_of lib streams policy d w r w' Hl W H Np t Ht Hn Nr. destruct (new_files entry_of lib Hl _ _ _ _ _ _ H W) as [_ K].
  destruct (K Np t Ht) as [I|[I|(st & q & b & K1 & K2 & K3 & K4 & K5)]]; [contradiction|contradiction|]. exists st, q, b. auto.
Qed.
Print Assumptions C29_failed_conversions_leave_nothing.

(** A file that is no encrypted file cannot be decrypted: the output is removed.  And if all goes well there is a new file. *)
Example C29_case : wf_fs (w_fs case_world) /\
  (exists w', crypt_streams (case_names false false) toy_lib [case_stream "junk.rypt" "junk"] KeepFiles false case_dec case_world (Err CComposite) w' /\ f_entries (w_fs w') (num "junk") = None) /\
  (exists w', crypt_streams (case_names false false) toy_lib [case_stream "notes" "notes.rypt"] KeepFiles false case_enc case_world (Ok tt) w' /\
     f_entries (w_fs w') (num "notes.rypt") <> None /\ f_entries (w_fs case_world) (num "notes.rypt") = None /\ ~ In (num "notes.rypt") (w_refused w')).
Proof.
  split; [exact case_wf_fs|]. split; [destruct case_bad as (w' & H & J); exists w'; split; [exact H|exact J]|].
  destruct (case_one KeepFiles) as (w' & H & (t & c & Et & (i & Pi & _) & _) & _); [discriminate|]. exists w'. split; [exact H|].
  assert (t = num "notes.rypt") as -> by (vm_compute in Et; injection Et as <-; reflexivity). split; [congruence|]. split; [reflexivity|].
  rewrite (FsProofs16.crypt_refused (case_names false false) toy_lib eq_refl _ _ _ _ _ _ _ H). intros [].
Qed.

(** When progress reporting aborts the program (C44) the unfinished output stays: it is not the conversion of anything. *)
Theorem C29_aborts_leave_nothing_refuted : exists (entry_of : names) lib streams policy d w w' t,
  lib_ok lib /\ wf_fs (w_fs w) /\ crypt_streams entry_of lib streams policy false d w Panic w' /\
  f_entries (w_fs w') t <> None /\ f_entries (w_fs w) t = None /\ ~ In t (w_refused w') /\
  forall q b, entry_of q = Some t -> ~ has_conversion entry_of lib d b (w_fs w') q.
Proof.
  destruct case_abort as (w' & H & Pf & Rf). exists (case_names false true), toy_lib, [case_stream "notes" "notes.rypt"], KeepFiles, case_enc, case_world, w', (num "notes.rypt").
  split; [exact toy_lib_ok|]. split; [exact case_wf_fs|]. split; [exact H|]. split; [destruct Pf as (i & E & _); congruence|]. split; [reflexivity|]. split; [rewrite Rf; intros []|].
  intros q b Eq (t & c & Et & Pc & Ic). assert (t = num "notes.rypt") as -> by congruence. rewrite <- (plain_unique _ _ _ _ Pf Pc) in Ic. exact (case_output_nonempty b Ic).
Qed.
Print Assumptions C29_aborts_leave_nothing_refuted.

(** Also with a panic or an interruption, nothing but outputs is created, and only for inputs that are plain files. *)
Theorem C29_only_outputs_are_created : forall entry_of lib streams policy d w r w',
  lib_ok lib -> wf_fs (w_fs w) -> w_past w = [] -> crypt_streams entry_of lib streams policy false d w r w' ->
  forall g t, In g (moments w') -> f_entries g t <> None -> f_entries (w_fs w) t = None ->
  exists st q, In st streams /\ s_output st = Ok (OFile q) /\ entry_of q = Some t /\
    forall p s, s_input st = IFile p -> entry_of p = Some s -> f_entries (w_fs w) s <> None -> exists b, plain_file (w_fs w) s b.
Proof.
  intros entry_of lib streams policy d w r w' Hl W P H g t Ig Ht Hn. destruct (crypt_made entry_of lib Hl _ _ _ _ _ _ H W g Ig) as [I|M].
  - unfold moments in I. rewrite P in I. destruct I as [<-|[]]. contradiction.
  - destruct (M t Ht) as [I|K]; [contradiction|exact K].
Qed.
Print Assumptions C29_only_outputs_are_created.

Example C29_created_case : exists w', crypt_streams (case_names false true) toy_lib [case_stream "notes" "notes.rypt"] KeepFiles false case_enc case_world Panic w' /\
  w_past case_world = [] /\ In (w_fs w') (moments w') /\ f_entries (w_fs w') (num "notes.rypt") <> None /\ f_entries (w_fs case_world) (num "notes.rypt") = None.
Proof.
  destruct case_abort as (w' & H & (i & E & _) & _). exists w'. split; [exact H|]. split; [reflexivity|]. split; [left; reflexivity|]. split; [congruence|reflexivity].
Qed.

(** ** C30 *)

(** At every moment each file that was there is there unchanged, or it was an input whose removal was requested and its
    complete conversion is there.  For inputs and outputs that are different files. *)
Theorem C30_original_or_conversion_at_every_moment : forall entry_of lib streams policy d w r w',
  lib_ok lib -> wf_fs (w_fs w) -> w_past w = [] -> file_to_file streams -> separate entry_of streams ->
  crypt_streams entry_of lib streams policy false d w r w' ->
  forall g s, In g (moments w') -> f_entries (w_fs w) s <> None ->
  intact (w_fs w) g s \/
  (deletion_requested policy w w' /\
   exists st q b, In st streams /\ converts entry_of st s q /\ plain_file (w_fs w) s b /\ has_conversion entry_of lib d b g q).
Proof.
  intros entry_of lib streams policy d w r w' Hl W P F Sp H g s Ig Ns.
  destruct (existing_files entry_of lib Hl _ _ _ _ _ _ H W P g s Ig Ns) as [K|(D & N & st & p & b & I & Ei & Es & Pl & [Eo|(q & Eo & _ & C)])]; [auto| |].
  - destruct (F st p I Ei Eo).
  - right. split; [exact D|]. exists st, q, b. split; [exact I|]. split; [exists p; auto|]. auto.
Qed.
Print Assumptions C30_original_or_conversion_at_every_moment.

Example C30_case : wf_fs (w_fs case_world) /\ w_past case_world = [] /\ file_to_file [case_stream "notes" "notes.rypt"] /\
  separate (case_names false false) [case_stream "notes" "notes.rypt"] /\ f_entries (w_fs case_world) (num "notes") <> None /\
  exists w', crypt_streams (case_names false false) toy_lib [case_stream "notes" "notes.rypt"] DeleteFiles false case_enc case_world (Ok tt) w' /\
    In (w_fs w') (moments w') /\ f_entries (w_fs w') (num "notes") = None.
Proof.
  split; [exact case_wf_fs|]. split; [reflexivity|]. split; [intros st p [<-|[]] _; discriminate|]. split.
  { intros st st' p q s [<-|[]] [<-|[]] [= <-] [= <-] E E'. vm_compute in E, E'. congruence. }
  split; [discriminate|]. destruct (case_one DeleteFiles) as (w' & H & _ & D); [discriminate|]. exists w'. split; [exact H|]. split; [left; reflexivity|exact (D eq_refl)].
Qed.

(** The condition is needed: rypt --discard-inputs notes notes.rypt, with only the first file there, makes notes.rypt of
    notes and notes.rypt.rypt of it, and removes both.  Neither notes nor its encryption is left. *)
Theorem C30_chains_of_files_refuted : exists entry_of lib streams d w w' s,
  lib_ok lib /\ wf_fs (w_fs w) /\ w_past w = [] /\ file_to_file streams /\ distinct_outputs entry_of streams /\
  crypt_streams entry_of lib streams DeleteFiles false d w (Ok tt) w' /\ f_entries (w_fs w) s <> None /\
  ~ intact (w_fs w) (w_fs w') s /\ forall st q b, In st streams -> converts entry_of st s q -> ~ has_conversion entry_of lib d b (w_fs w') q.
Proof.
  destruct case_chained as (w' & H & A & B). exists (case_names false false), toy_lib, case_chain, case_enc, case_world, w', (num "notes").
  split; [exact toy_lib_ok|]. split; [exact case_wf_fs|]. split; [reflexivity|]. split; [intros st p [<-|[<-|[]]] _; discriminate|]. split.
  { intros l1 st l2 st' l3 q q' t E Eo Eo' Et. destruct l1 as [|x l1].
    - injection E as <- E. destruct l2 as [|y l2]; [|injection E as <- E; destruct l2; discriminate E]. injection E as <- _. injection Eo as <-. injection Eo' as <-.
      vm_compute in Et. injection Et as <-. vm_compute. discriminate.
    - injection E as <- E. destruct l1 as [|y l1]; [injection E as <- E; destruct l2; discriminate E|]. injection E as _ E. destruct l1; discriminate E. }
  split; [exact H|]. split; [discriminate|]. split; [intros [X _]; rewrite A in X; discriminate X|].
  intros st q b [<-|[<-|[]]] (p & Ei & Es & Eo) (t & c & Et & (i & P & _) & _); injection Ei as <-; injection Eo as <-.
  - assert (t = num "notes.rypt") as -> by (vm_compute in Et; injection Et as <-; reflexivity). congruence.
  - vm_compute in Es. discriminate Es.
Qed.
Print Assumptions C30_chains_of_files_refuted.

(** ** C31 *)

(** A run that reports success has converted every file. *)
Theorem C31_success_means_all_converted : forall entry_of lib streams policy d w w',
  lib_ok lib -> wf_fs (w_fs w) -> crypt_streams entry_of lib streams policy false d w (Ok tt) w' ->
  all_converted entry_of lib streams d w w'.
Proof. intros entry_of lib streams policy d w w' Hl W H. exact (reported_success entry_of lib Hl _ _ _ _ _ H W). Qed.
Print Assumptions C31_success_means_all_converted.

Example C31_success_case : exists w', crypt_streams (case_names false false) toy_lib [case_stream "notes" "notes.rypt"] KeepFiles false case_enc case_world (Ok tt) w' /\ wf_fs (w_fs case_world).
Proof. destruct (case_one KeepFiles) as (w' & H & _); [discriminate|]. exists w'. split; [exact H|exact case_wf_fs]. Qed.

(** A run that reports failures has failed for some file: that file has no new output. *)
Theorem C31_failure_means_some_not_converted : forall entry_of lib streams policy d w w',
  lib_ok lib -> wf_fs (w_fs w) -> distinct_outputs entry_of streams ->
  crypt_streams entry_of lib streams policy false d w (Err CComposite) w' ->
  exists st, In st streams /\ forall q t, s_output st = Ok (OFile q) -> entry_of q = Some t ->
    f_entries (w_fs w) t <> None \/ In t (w_refused w') \/ f_entries (w_fs w') t = None.
Proof. intros entry_of lib streams policy d w w' Hl W D H. exact (reported_failure entry_of lib Hl _ _ _ _ _ H W D). Qed.
Print Assumptions C31_failure_means_some_not_converted.

Example C31_failure_case : distinct_outputs (case_names false false) case_both /\ exists w',
  crypt_streams (case_names false false) toy_lib case_both DeleteFiles false case_enc case_world (Err CComposite) w' /\ f_entries (w_fs w') (num "link.rypt") = None.
Proof. split; [apply case_both_distinct|]. destruct case_two as (w' & H & _ & _ & N). exists w'. split; [exact H|exact N]. Qed.

(** There are no other errors when the terminal works, but for a question that cannot be asked. *)
Theorem C31_only_failures_are_reported : forall entry_of lib streams policy d w e w',
  crypt_streams entry_of lib streams policy false d w (Err e) w' -> u_room (w_ui w) = None ->
  e = CComposite \/ (policy = PromptUser /\ In e [CIo; CEof; CNonUtf8; CCannotPrompt]).
Proof. intros entry_of lib streams policy d w e w' H R. exact (crypt_errors entry_of lib _ _ _ _ _ _ H R). Qed.
Print Assumptions C31_only_failures_are_reported.

Example C31_errors_case : u_room (w_ui case_world) = None /\ exists w', crypt_streams (case_names false false) toy_lib case_both DeleteFiles false case_enc case_world (Err CComposite) w'.
Proof. split; [reflexivity|]. destruct case_two as (w' & H & _). exists w'. exact H. Qed.

(** A file that is not converted changes nothing for the others: the run could have ended with the same files if the
    file had not been on the list. *)
Theorem C31_failures_do_not_matter_to_others : forall entry_of lib l1 st l2 policy d w r w',
  lib_ok lib -> u_room (w_ui w) = None -> s_input st <> IStdin -> s_output st <> Ok OStdout ->
  crypt_streams entry_of lib (l1 ++ st :: l2) policy false d w r w' -> r <> Panic ->
  (exists q b f, s_output st = Ok (OFile q) /\ In f (moments w') /\ has_conversion entry_of lib d b f q /\
     forall p, s_input st = IFile p -> exists s, entry_of p = Some s /\ plain_file f s b) \/
  (exists q t, s_output st = Ok (OFile q) /\ entry_of q = Some t /\ In t (w_refused w')) \/
  (r <> Ok tt /\ exists r' v', crypt_streams entry_of lib (l1 ++ l2) policy false d w r' v' /\ (r' = r \/ r' = Ok tt) /\
     (forall s, f_entries (w_fs v') s = f_entries (w_fs w') s) /\ (forall i, f_nodes (w_fs v') i = f_nodes (w_fs w') i)).
Proof.
  intros entry_of lib l1 st l2 policy d w r w' Hl R Ni No H Np.
  destruct (crypt_without entry_of lib Hl _ _ _ _ _ _ _ _ H R Np Ni No) as [(q & b & f & A & B & C & D)|[K|(A & r' & v' & B & [C1 C2] & D)]].
  - left. exists q, b, f. auto.
  - auto.
  - right. right. split; [exact A|]. exists r', v'. split; [exact B|]. split; [exact D|]. split; intros; symmetry; auto.
Qed.
Print Assumptions C31_failures_do_not_matter_to_others.

(** The file after the refused link is converted as if it were alone. *)
Example C31_others_case : let st := case_stream "link" "link.rypt" in s_input st <> IStdin /\ s_output st <> Ok OStdout /\ case_both = [] ++ st :: [case_stream "notes" "notes.rypt"] /\
  exists w', crypt_streams (case_names false false) toy_lib case_both DeleteFiles false case_enc case_world (Err CComposite) w' /\
    has_conversion (case_names false false) toy_lib case_enc case_data (w_fs w') (at_ "notes.rypt").
Proof. split; [discriminate|]. split; [discriminate|]. split; [reflexivity|]. destruct case_two as (w' & H & C & _). exists w'. split; [exact H|exact C]. Qed.

(** The exit status of the program: 0 only if the command line was understood and the command was successful; then,
    without force, all files are converted. *)
Theorem C31_exit_status : forall entry_of lib sha512 files args stdin_is_tty stdout_is_tty stderr_is_tty w status w',
  main entry_of lib sha512 files args stdin_is_tty stdout_is_tty stderr_is_tty w status w' ->
  (status = 0 \/ status = 1 \/ status = 101) /\
  (status = 0 <-> exists c u w1, parse_command_line sha512 files args stdin_is_tty stdout_is_tty stderr_is_tty (w_ui w) = (Ok c, u) /\
     run_command entry_of lib sha512 c (set_ui w u) (Ok tt) w1 /\ w_fs w1 = w_fs w' /\ status = 0) /\
  (status = 0 -> lib_ok lib -> wf_fs (w_fs w) -> ~ asked args OForce -> forall streams policy force d u,
     parse_command_line sha512 files args stdin_is_tty stdout_is_tty stderr_is_tty (w_ui w) = (Ok (CryptStreams streams policy force d), u) ->
     all_converted entry_of lib streams d w w').
Proof.
  intros entry_of lib sha512 files args ti to te w status w' H.
  destruct (main_inv _ _ _ _ _ _ _ _ _ _ _ H) as (rc & u1 & Ep & [(Nc & Q & Ns)|(c & r & w1 & -> & H1 & Q & _ & _ & Es)]).
  - assert (X : status = 0 \/ status = 1 \/ status = 101).
    { destruct H as (r & w1 & _ & K). destruct r as [[]|e|]; [left; apply K|right; left; destruct e; apply K|right; right; apply K]. }
    split; [exact X|]. split; [split; [contradiction|intros (c & u & w1 & E & _); rewrite Ep in E; injection E as ->; destruct (Nc c eq_refl)]|contradiction].
  - split; [destruct r; auto|]. split; [split|].
    + intros E. rewrite E in Es. destruct r as [[]|e|]; try discriminate Es. exists c, u1, w1. split; [exact Ep|]. split; [exact H1|]. split; [symmetry; apply Q|exact E].
    + intros (_ & _ & _ & _ & _ & _ & E). exact E.
    + intros E Hl W Nf streams policy force d u Ec. rewrite Ec in Ep. injection Ep as <- <-. rewrite E in Es. destruct r as [[]|e|]; try discriminate Es.
      destruct (crypt_options _ _ _ _ _ _ _ _ _ _ _ _ Ec) as (_ & Fo & _). destruct force; [destruct (Nf (Fo eq_refl))|].
      eapply converted_same; [exact Q|]. exact (reported_success entry_of lib Hl _ _ _ (set_ui w u) w1 H1 W).
Qed.
Print Assumptions C31_exit_status.

Example C31_status_case : ~ asked case_command OForce /\ exists w', main (case_names false false) toy_lib case_digest case_secrets case_command false false false case_start 0 w' /\
  has_conversion (case_names false false) toy_lib case_enc case_data (w_fs w') (at_ "notes.rypt").
Proof. split; [exact case_not_forced|]. destruct case_program as (w' & H & C & _). exists w'. split; [exact H|exact C]. Qed.

(** ** C32 *)

(** In file mode without force, an input that is not a plain file with one name is left alone, makes the run fail, and
    gets no output. *)
Theorem C32_only_plain_files_are_processed : forall entry_of lib streams policy d w r w' st p s,
  lib_ok lib -> wf_fs (w_fs w) -> w_past w = [] -> crypt_streams entry_of lib streams policy false d w r w' ->
  In st streams -> s_input st = IFile p -> entry_of p = Some s -> f_entries (w_fs w) s <> None -> (forall b, ~ plain_file (w_fs w) s b) ->
  r <> Ok tt /\ (forall g, In g (moments w') -> intact (w_fs w) g s) /\
  (distinct_outputs entry_of streams -> forall q t, s_output st = Ok (OFile q) -> entry_of q = Some t -> f_entries (w_fs w) t = None ->
     forall g, In g (moments w') -> f_entries g t = None).
Proof. intros entry_of lib streams policy d w r w' st p s Hl W P H. exact (not_plain entry_of lib Hl _ _ _ _ _ _ st p s H W P). Qed.
Print Assumptions C32_only_plain_files_are_processed.

Example C32_case : In (case_stream "link" "link.rypt") case_both /\ f_entries (w_fs case_world) (num "link") <> None /\ (forall b, ~ plain_file (w_fs case_world) (num "link") b) /\
  distinct_outputs (case_names false false) case_both /\ exists w', crypt_streams (case_names false false) toy_lib case_both DeleteFiles false case_enc case_world (Err CComposite) w'.
Proof.
  split; [left; reflexivity|]. split; [discriminate|]. split; [exact case_link_not_plain|]. split; [apply case_both_distinct|]. destruct case_two as (w' & H & _). exists w'. exact H.
Qed.

(** Directories are refused even with force, and stay. *)
Theorem C32_directories_are_refused : forall entry_of lib streams policy force d w r w' st p s,
  crypt_streams entry_of lib streams policy force d w r w' -> w_past w = [] ->
  In st streams -> s_input st = IFile p \/ s_input st = IFileStream p -> entry_of p = Some s -> f_entries (w_fs w) s = Some EDir ->
  r <> Ok tt /\ forall g, In g (moments w') -> f_entries g s = Some EDir.
Proof.
  intros entry_of lib streams policy force d w r w' st p s H P I Ei Es Ed. destruct (directories entry_of lib _ _ _ _ _ _ _ _ _ _ H I Ei Es Ed) as (A & _ & B).
  split; [exact A|]. intros g Ig. destruct (B g Ig) as [J|J]; [|exact J]. unfold moments in J. rewrite P in J. destruct J as [<-|[]]. exact Ed.
Qed.
Print Assumptions C32_directories_are_refused.

Example C32_directory_case : f_entries (w_fs case_world) (num "dir") = Some EDir /\ exists r w', crypt_streams (case_names false false) toy_lib [case_stream "dir" "dir.rypt"] DeleteFiles true case_enc case_world r w'.
Proof.
  split; [reflexivity|]. destruct (FsProofs12.total_crypt (case_names false false) toy_lib toy_lib_ok [case_stream "dir" "dir.rypt"] DeleteFiles true case_enc case_world case_spacious) as ((r & w' & H) & _). exists r, w'. exact H.
Qed.

(** Stream mode changes no file, whatever the options; success means that the conversion of the whole input was written
    to the standard output. *)
Theorem C32_stream_mode_changes_no_file : forall entry_of lib streams policy force d w r w' i,
  crypt_streams entry_of lib streams policy force d w r w' -> streams = [mkStream i (Ok OStdout)] -> (forall p, i <> IFile p) -> w_past w = [] ->
  (forall g, In g (moments w') -> g = w_fs w) /\
  (lib_ok lib -> r = Ok tt -> exists b c, is_conversion lib d b c /\ w_stdout w' = w_stdout w ++ c /\
    (i = IStdin -> exists s, u_input (w_ui w) = Some s /\ b = flat s) /\
    (forall p, i = IFileStream p -> exists s t, entry_of p = Some s /\ follow max_links (w_fs w) s = Some t /\
       forall j n, f_entries (w_fs w) t = Some (EFile j) -> f_nodes (w_fs w) j = Some n -> n_regular n = true -> b = n_content n)).
Proof.
  intros entry_of lib streams policy force d w r w' i H -> Ni P. split.
  - destruct (streams_no_files entry_of lib _ _ _ _ _ _ _ H) as [_ K].
    + intros st [<-|[]]. split; [exact Ni|discriminate].
    + intros g Ig. specialize (K g Ig). unfold moments in K. rewrite P in K. destruct K as [<-|[]]. reflexivity.
  - intros Hl. exact (stream_output entry_of lib Hl _ _ _ _ _ _ _ H Ni).
Qed.
Print Assumptions C32_stream_mode_changes_no_file.

Example C32_stream_case : exists w', crypt_streams (case_names false false) toy_lib case_through_link DeleteFiles false case_enc case_world (Ok tt) w' /\
  case_through_link = [mkStream (IFileStream (at_ "link")) (Ok OStdout)] /\ w_past case_world = [].
Proof. destruct (case_streamed DeleteFiles) as (w' & H). exists w'. split; [exact H|]. split; reflexivity. Qed.

(** The command line only ever asks for file mode and stream mode in this sense. *)
Theorem C32_command_lines : forall sha512 files args stdin_is_tty stdout_is_tty stderr_is_tty u streams policy force d u',
  parse_command_line sha512 files args stdin_is_tty stdout_is_tty stderr_is_tty u = (Ok (CryptStreams streams policy force d), u') ->
  file_to_file streams /\
  ((forall st, In st streams -> exists p, s_input st = IFile p) \/ exists i, streams = [mkStream i (Ok OStdout)] /\ forall p, i <> IFile p).
Proof.
  intros sha512 files args ti to te u streams policy force d u' H. destruct (crypt_options _ _ _ _ _ _ _ _ _ _ _ _ H) as (A & _ & _ & B). auto.
Qed.
Print Assumptions C32_command_lines.

Example C32_command_case : exists u', parse_command_line case_digest case_secrets case_command false false false (w_ui case_start) = (Ok (CryptStreams [case_stream "notes" "notes.rypt"] DeleteFiles false case_enc), u').
Proof. exists case_ui. exact case_parsed. Qed.

(** ** C42 *)

(** Key generation without force leaves everything that was there as it is. *)
Theorem C42_existing_files_survive : forall entry_of lib sha512 streams w r w',
  w_past w = [] -> generate_key_pair_files entry_of lib sha512 streams false w r w' ->
  forall g s, In g (moments w') -> f_entries (w_fs w) s <> None -> intact (w_fs w) g s.
Proof.
  intros entry_of lib sha512 streams w r w' P H g s Ig Ns. destruct (generate_spec _ _ _ _ _ _ _ H) as [Q|(cs & _ & K & _)].
  - rewrite (moments_same _ _ Q) in Ig. unfold moments in Ig. rewrite P in Ig. destruct Ig as [<-|[]]. split; auto.
  - destruct (wr_moments _ _ _ K g Ig) as [I|[E _]]; [|apply E, Ns]. unfold moments in I. rewrite P in I. destruct I as [<-|[]]. split; auto.
Qed.
Print Assumptions C42_existing_files_survive.

Example C42_case : w_past case_world = [] /\ f_entries (w_fs case_world) (num "notes") <> None /\
  exists w', generate_key_pair_files (case_names false false) toy_lib case_digest [case_pair] false case_world (Ok tt) w'.
Proof. split; [reflexivity|]. split; [discriminate|]. exact case_generated. Qed.

(** At every moment a new file is one of the named ones; if it is not named as a private key file it has at most the text
    of the public key, which is the same for every private key. *)
Theorem C42_public_files_are_public : forall entry_of lib sha512 streams w r w',
  w_past w = [] -> generate_key_pair_files entry_of lib sha512 streams false w r w' ->
  forall g t, In g (moments w') -> f_entries g t <> None -> f_entries (w_fs w) t = None ->
  (forall ks p, In ks streams -> k_private ks = OFile p -> entry_of p <> Some t) ->
  exists ks p cs seed public_text content,
    In ks streams /\ k_public ks = Some p /\ entry_of p = Some t /\ lib ChaCha20Poly1305Ietf = Some cs /\
    plain_file g t content /\ prefix_of content (utf8 public_text) /\
    forall sk text private_text, key_pair_texts sha512 (fst (cs_keypair cs seed)) sk = Ok (text, private_text) -> text = public_text.
Proof.
  intros entry_of lib sha512 streams w r w' P H g t Ig Ht Hn Np. destruct (generate_spec _ _ _ _ _ _ _ H) as [Q|(cs & El & K & _)].
  - rewrite (moments_same _ _ Q) in Ig. unfold moments in Ig. rewrite P in Ig. destruct Ig as [<-|[]]. contradiction.
  - destruct (wr_moments _ _ _ K g Ig) as [I|[_ N]].
    + unfold moments in I. rewrite P in I. destruct I as [<-|[]]. contradiction.
    + destruct (N t Ht) as [I|(txt & out & (ks & seed & pub & priv & Ik & Et & [(p & Ep & Es & ->)|(p & Ep & Es & _)]) & Po & Pl)]; [contradiction| |destruct (Np ks p Ik Ep Es)].
      exists ks, p, cs, seed, pub, out. do 6 (split; [assumption|]). intros sk text private_text E. eapply public_text_only; eassumption.
Qed.
Print Assumptions C42_public_files_are_public.

Example C42_public_case : (forall ks p, In ks [case_pair] -> k_private ks = OFile p -> case_names false false p <> Some (num "me.pub")) /\ f_entries (w_fs case_world) (num "me.pub") = None /\
  exists w', generate_key_pair_files (case_names false false) toy_lib case_digest [case_pair] false case_world (Ok tt) w' /\ f_entries (w_fs w') (num "me.pub") <> None.
Proof.
  split; [intros ks p [<-|[]] [= <-]; vm_compute; discriminate|]. split; [reflexivity|]. destruct case_generated as (w' & H). exists w'. split; [exact H|].
  destruct (generate_ok _ _ _ _ _ _ H) as (cs & El & K). destruct (K case_pair (or_introl eq_refl)) as (seed & pub & priv & _ & A & _).
  destruct (A (at_ "me.pub") eq_refl) as (t & Et & _ & (i & E & _)). assert (t = num "me.pub") as -> by (vm_compute in Et; injection Et as <-; reflexivity). congruence.
Qed.

(** rypt -f -g me.pub is successful and leaves the text of the private key in the file me.pub, which is also the name of
    the public key file. *)
Theorem C42_coinciding_names_refuted : exists (entry_of : names) lib sha512 files w w' cs seed public_text private_text ks t,
  lib_ok lib /\ lib ChaCha20Poly1305Ietf = Some cs /\ key_pair_texts sha512 (fst (cs_keypair cs seed)) (snd (cs_keypair cs seed)) = Ok (public_text, private_text) /\ utf8 public_text <> utf8 private_text /\
  parse_command_line sha512 files (map lit ["-f"; "-g"; "me.pub"]%string) false false false (w_ui w) = (Ok (GenerateKeyPair [ks] true), w_ui w) /\
  k_public ks = Some (components (lit "me.pub")) /\ entry_of (components (lit "me.pub")) = Some t /\ f_entries (w_fs w) t = None /\
  main entry_of lib sha512 files (map lit ["-f"; "-g"; "me.pub"]%string) false false false w 0 w' /\ plain_file (w_fs w') t (utf8 private_text).
Proof.
  destruct case_overwritten as (w' & H & Pf & _). exists (case_names false false), toy_lib, case_digest, case_secrets, case_start, w', toy_cs, [], case_public, case_private, case_same, (num "me.pub").
  split; [exact toy_lib_ok|]. split; [reflexivity|]. split; [exact (proj1 case_key_texts)|]. split; [exact (proj2 case_key_texts)|]. split; [exact case_forced_parsed|].
  split; [reflexivity|]. split; [reflexivity|]. split; [reflexivity|]. split; [exact H|exact Pf].
Qed.
Print Assumptions C42_coinciding_names_refuted.

(** ** C55 *)

(** Success means that all files are new and hold both keys of a pair. *)
Theorem C55_generated_pairs_are_complete : forall entry_of lib sha512 streams w w',
  generate_key_pair_files entry_of lib sha512 streams false w (Ok tt) w' -> forall ks, In ks streams ->
  exists cs seed public_text private_text,
    lib ChaCha20Poly1305Ietf = Some cs /\
    key_pair_texts sha512 (fst (cs_keypair cs seed)) (snd (cs_keypair cs seed)) = Ok (public_text, private_text) /\
    (forall p, k_public ks = Some p -> exists t, entry_of p = Some t /\ f_entries (w_fs w) t = None /\ plain_file (w_fs w') t (utf8 public_text)) /\
    (forall p, k_private ks = OFile p -> exists t, entry_of p = Some t /\ f_entries (w_fs w) t = None /\ plain_file (w_fs w') t (utf8 private_text)) /\
    (k_private ks = OStdout -> exists before after, w_stdout w' = before ++ utf8 private_text ++ after).
Proof.
  intros entry_of lib sha512 streams w w' H ks Ik. destruct (generate_ok _ _ _ _ _ _ H) as (cs & El & K).
  destruct (K ks Ik) as (seed & pub & priv & E & A & B & C). exists cs, seed, pub, priv. auto.
Qed.
Print Assumptions C55_generated_pairs_are_complete.

Example C55_case : exists w', generate_key_pair_files (case_names false false) toy_lib case_digest [case_pair] false case_world (Ok tt) w'.
Proof. exact case_generated. Qed.

(** ** C47 *)

(** Without a request for deletion, by option or by answering yes, everything that was there stays. *)
Theorem C47_files_are_kept_unless_requested : forall entry_of lib streams policy d w r w',
  lib_ok lib -> wf_fs (w_fs w) -> w_past w = [] -> crypt_streams entry_of lib streams policy false d w r w' ->
  ~ deletion_requested policy w w' ->
  forall g s, In g (moments w') -> f_entries (w_fs w) s <> None -> intact (w_fs w) g s.
Proof.
  intros entry_of lib streams policy d w r w' Hl W P H Nd g s Ig Ns.
  destruct (existing_files entry_of lib Hl _ _ _ _ _ _ H W P g s Ig Ns) as [K|(D & _)]; [exact K|destruct (Nd D)].
Qed.
Print Assumptions C47_files_are_kept_unless_requested.

Example C47_case : exists w', crypt_streams (case_names false false) toy_lib [case_stream "notes" "notes.rypt"] KeepFiles false case_enc case_world (Ok tt) w' /\
  ~ deletion_requested KeepFiles case_world w' /\ wf_fs (w_fs case_world) /\ w_past case_world = [].
Proof.
  destruct (case_one KeepFiles) as (w' & H & _); [discriminate|]. exists w'. split; [exact H|]. split; [intros [X|[X _]]; discriminate X|]. split; [exact case_wf_fs|reflexivity].
Qed.

(** ** C54 *)

(** Even with force, nothing is touched but the named inputs and outputs, what links among them lead to, and other names
    of these files.  [T] is a set of entries that has the named ones and where links in it lead. *)
Theorem C54_force_touches_only_named_files : forall entry_of lib streams policy force d w r w' (T : N -> Prop),
  crypt_streams entry_of lib streams policy force d w r w' -> w_past w = [] ->
  (forall st q s, In st streams -> s_output st = Ok (OFile q) -> entry_of q = Some s -> T s) ->
  (forall st p s, In st streams -> s_input st = IFile p -> entry_of p = Some s -> T s) ->
  (forall s t, T s -> f_entries (w_fs w) s = Some (ELink (Some t)) -> T t) ->
  forall s, ~ T s -> (forall t i, T t -> f_entries (w_fs w) s = Some (EFile i) -> f_entries (w_fs w) t <> Some (EFile i)) ->
  forall g, In g (moments w') -> intact (w_fs w) g s.
Proof.
  intros entry_of lib streams policy force d w r w' T H P To Ti Tl s Ns Na g Ig.
  assert (W : within T T w w') by (eapply crypt_within; [exact H|]; split; [intros st q s' I E Es; split; eapply To; eassumption|exact Ti]).
  assert (A0 : apart T (w_fs w) s (w_fs w)) by (split; [exact Tl|split; [split; auto|exact Na]]).
  destruct (W (apart T (w_fs w) s) (fun f g' => touch_apart T (w_fs w) s f g' Ns) A0) as [_ K].
  destruct (K g Ig) as [I|(_ & I & _)]; [|exact I]. unfold moments in I. rewrite P in I. destruct I as [<-|[]]. split; auto.
Qed.
Print Assumptions C54_force_touches_only_named_files.

(** A forced encryption of the link writes through it at most. *)
Example C54_case : let T s := s = num "link" \/ s = num "notes" \/ s = num "link.rypt" in
  (exists r w', crypt_streams (case_names false false) toy_lib [case_stream "link" "link.rypt"] DeleteFiles true case_enc case_world r w') /\
  (forall st q s, In st [case_stream "link" "link.rypt"] -> s_output st = Ok (OFile q) -> case_names false false q = Some s -> T s) /\
  (forall st p s, In st [case_stream "link" "link.rypt"] -> s_input st = IFile p -> case_names false false p = Some s -> T s) /\
  (forall s t, T s -> f_entries (w_fs case_world) s = Some (ELink (Some t)) -> T t) /\
  ~ T (num "junk.rypt") /\ (forall t i, T t -> f_entries (w_fs case_world) (num "junk.rypt") = Some (EFile i) -> f_entries (w_fs case_world) t <> Some (EFile i)).
Proof.
  cbn zeta. split.
  { destruct (FsProofs12.total_crypt (case_names false false) toy_lib toy_lib_ok [case_stream "link" "link.rypt"] DeleteFiles true case_enc case_world case_spacious) as ((r & w' & H) & _). exists r, w'. exact H. }
  split; [intros st q s [<-|[]] [= <-] E; right; right; vm_compute in E; injection E as <-; reflexivity|].
  split; [intros st q s [<-|[]] [= <-] E; left; vm_compute in E; injection E as <-; reflexivity|].
  split; [intros s t [E1 | [E1 | E1]] E; subst s; [injection E as <-; right; left; reflexivity|discriminate E..]|].
  split; [intros [E|[E|E]]; vm_compute in E; discriminate E|]. intros t i [E1 | [E1 | E1]] E; subst t; injection E as <-; discriminate.
Qed.
Theorem C54_key_generation_touches_only_named_files : forall entry_of lib sha512 streams force w r w' (T : N -> Prop),
  generate_key_pair_files entry_of lib sha512 streams force w r w' -> w_past w = [] ->
  (forall ks q s, In ks streams -> k_public ks = Some q \/ k_private ks = OFile q -> entry_of q = Some s -> T s) ->
  (forall s t, T s -> f_entries (w_fs w) s = Some (ELink (Some t)) -> T t) ->
  forall s, ~ T s -> (forall t i, T t -> f_entries (w_fs w) s = Some (EFile i) -> f_entries (w_fs w) t <> Some (EFile i)) ->
  forall g, In g (moments w') -> intact (w_fs w) g s.
Proof.
  intros entry_of lib sha512 streams force w r w' T H P To Tl s Ns Na g Ig.
  assert (W : within T T w w') by (eapply generate_within; [exact H|exact To]).
  assert (A0 : apart T (w_fs w) s (w_fs w)) by (split; [exact Tl|split; [split; auto|exact Na]]).
  destruct (W (apart T (w_fs w) s) (fun f g' => touch_apart T (w_fs w) s f g' Ns) A0) as [_ K].
  destruct (K g Ig) as [I|(_ & I & _)]; [|exact I]. unfold moments in I. rewrite P in I. destruct I as [<-|[]]. split; auto.
Qed.
Print Assumptions C54_key_generation_touches_only_named_files.

Example C54_keys_case : let T s := s = num "me.pub" \/ s = num "me" in
  (exists w', generate_key_pair_files (case_names false false) toy_lib case_digest [case_pair] false case_world (Ok tt) w') /\
  (forall ks q s, In ks [case_pair] -> k_public ks = Some q \/ k_private ks = OFile q -> case_names false false q = Some s -> T s) /\
  (forall s t, T s -> f_entries (w_fs case_world) s = Some (ELink (Some t)) -> T t) /\ ~ T (num "notes") /\
  (forall t i, T t -> f_entries (w_fs case_world) (num "notes") = Some (EFile i) -> f_entries (w_fs case_world) t <> Some (EFile i)).
Proof.
  cbn zeta. split; [exact case_generated|]. split; [intros ks q s [<-|[]] [K|K] E; injection K as <-; vm_compute in E; injection E as <-; [left|right]; reflexivity|].
  split; [intros s t [E1 | E1] E; subst s; discriminate E|]. split; [intros [E|E]; vm_compute in E; discriminate E|]. intros t i [E1 | E1] E; subst t; injection E as <-; discriminate.
Qed.

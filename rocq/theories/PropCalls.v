(** The calls to the operating system that commands make, whatever the answers are, wherever the process is killed, and
    whatever other processes do (C66); and what they do to a file system that other processes use (C67).

    Vocabulary: [crypt_calls], [key_calls], [main_calls], [shared], [takes] (Calls); [happens], [opens], [creates],
    [ready_to_convert], [has_failed], [was_converted], [removal_requested], [allowed_step], [stream_done] (CallSpec). *)
From Coq.Strings Require Import Byte String.
From Coq Require Import List NArith ZArith Bool PeanoNat Lia.
From Verif Require Import Base BaseFacts Shamir Errors Io HeaderIoSpec StreamSpec Text Util CliErrors Getopts Crypto HeaderCrypto CredSpec FileCrypto KeyFiles Ui UiSpec Paths CliCreds Cli CliSpec Fs Commands FsSpec ConvProofs
  FsProofs10 ToyCrypto FsCases FsCases2 Program Calls CallSpec CallProofs CallProofs2 CallProofs3 CallProofs4 CallProofs5 CallCases.
Import ListNotations.
Local Open Scope N_scope.

(** ** C66 *)

(** Output files are only created once the input of their stream is open, as new files unless forced, and before any
    original is removed. *)
Theorem C66_creations lib streams policy force d u r h u' b q : lib_ok lib ->
  crypt_calls lib streams policy force d u r h u' ->
  (forall x, happens h b (SCreateNew q x) -> force = false /\ input_opened streams force q b /\ originals_there streams force d b) /\
  (forall x, happens h b (SCreateOrTruncate q x) -> force = true /\ input_opened streams force q b /\ originals_there streams force d b).
Proof.
  intros Hl H. split; intros x K; destruct (crypt_justified lib Hl _ _ _ _ _ _ _ _ H _ _ K) as (C & F & O); (split; [exact F|]; split; [exact O|]); intros b' p y [a E]; eapply C, E.
Qed.
Print Assumptions C66_creations.

(** A conversion reads and writes what the calls just before have opened, one stream of the command, in the direction
    that was asked for; and if it succeeds then all that was read has been converted. *)
Theorem C66_conversions lib streams policy force d u r h u' b d' rd wr src out x : lib_ok lib ->
  crypt_calls lib streams policy force d u r h u' -> happens h b (SConvert d' rd wr src out x) ->
  d' = d /\ (exists st o, In st streams /\ ready_to_convert force st o rd wr b) /\ originals_there streams force d b /\
  (x = Some (Ok tt) -> ends_in_error src = false /\ is_conversion lib d (flat src) out).
Proof.
  intros Hl H K. destruct (crypt_justified lib Hl _ _ _ _ _ _ _ _ H _ _ K) as (C & E & R & X). split; [exact E|]. split; [exact R|]. split; [|exact X].
  intros b' p y [a Eb]. eapply C, Eb.
Qed.
Print Assumptions C66_conversions.

(** Files are only removed if they are outputs whose conversion has just failed; or originals that have been converted
    completely, to an output that is still there as far as the command is concerned, after the user has asked for it. *)
Theorem C66_removals lib streams policy force d u r h u' b p x : lib_ok lib ->
  crypt_calls lib streams policy force d u r h u' -> happens h b (SRemove p x) ->
  has_failed streams force d p b \/ (was_converted lib streams force d p b /\ removal_requested policy b).
Proof. intros Hl H. exact (removals_spec lib Hl streams policy force d u u' r h H b p x). Qed.
Print Assumptions C66_removals.

(** Reading inputs: only those of the command, and none after an original was removed. *)
Theorem C66_inputs lib streams policy force d u r h u' b e : lib_ok lib ->
  crypt_calls lib streams policy force d u r h u' -> happens h b e ->
  match e with
  | SOpenRead p _ | SStat p _ => originals_there streams force d b /\ exists st, In st streams /\ (s_input st = IFile p \/ s_input st = IFileStream p)
  | STakeStdin _ => originals_there streams force d b /\ exists st, In st streams /\ s_input st = IStdin
  | SWriteText _ _ _ _ | SKeypair _ | SStdout _ _ => False
  | _ => True
  end.
Proof.
  intros Hl H K. pose proof (crypt_justified lib Hl _ _ _ _ _ _ _ _ H _ _ K) as J.
  destruct e; cbn [justified] in J; try exact I; try exact J; destruct J as [C J]; (split; [|exact J]); intros b' q y [a E]; eapply C, E.
Qed.
Print Assumptions C66_inputs.

Example C66_case : exists h b p u', crypt_calls toy_lib case_job DeleteFiles false case_enc case_ui (Some (Ok tt)) h u' /\
  happens h b (SRemove p (Ok tt)) /\ was_converted toy_lib case_job false case_enc p b.
Proof.
  destruct case_removal as (h & b & p & w1 & w2 & u' & T & Hb & Ep & _). exists h, b, p, u'. split; [exact T|]. split; [exact Hb|].
  destruct (C66_removals _ _ _ _ _ _ _ _ _ _ _ _ toy_lib_ok T Hb) as [(st & rd & wr & src & out & e & new & h0 & [<-|[]] & (X & _) & _)|[K _]]; [|exact K].
  injection X as <-. vm_compute in Ep. discriminate Ep.
Qed.

(** Generating key pairs: nothing is read, converted or removed.  Only the key files are created, as new files unless
    forced.  A text is only written to the file that was just opened for it, the private one only after the public one
    was written completely. *)
Theorem C66_key_pairs lib sha512 streams force u r h u' b e :
  key_calls lib sha512 streams force u r h u' -> happens h b e ->
  match e with
  | SKeypair _ | SUi _ => True
  | SCreateNew q _ => force = false /\ exists ks, In ks streams /\ (k_public ks = Some q \/ k_private ks = OFile q)
  | SCreateOrTruncate q _ => force = true /\ exists ks, In ks streams /\ (k_public ks = Some q \/ k_private ks = OFile q)
  | SWriteText wr t out x => prefix_of out (utf8 t) /\ (x = Ok tt -> out = utf8 t) /\
      (for_public sha512 streams force wr t b \/ for_private sha512 streams force wr t b)
  | _ => False
  end.
Proof.
  intros H K. pose proof (key_justified lib sha512 streams force u r h u' H b e K) as J.
  assert (Kf : forall q, (exists ks, In ks streams /\ In q (key_files ks)) -> exists ks, In ks streams /\ (k_public ks = Some q \/ k_private ks = OFile q)).
  { intros q (ks & I & Iq). exists ks. split; [exact I|]. unfold key_files in Iq. apply in_app_or in Iq as [Iq|Iq].
    - left. destruct (k_public ks); [destruct Iq as [<-|[]]; reflexivity|destruct Iq].
    - right. destruct (k_private ks); [destruct Iq as [<-|[]]; reflexivity|destruct Iq]. }
  destruct e; cbn [justified_key] in J; try exact J; destruct J as [F J]; (split; [exact F|]); auto.
Qed.
Print Assumptions C66_key_pairs.

Example C66_key_pairs_case : exists h u', key_calls toy_lib case_digest [case_pair] false case_ui (Some (Ok tt)) h u' /\ exists pair, In (SKeypair pair) h.
Proof.
  destruct case_generated as (w' & H). destruct (l_keys _ _ _ _ _ _ _ _ H) as (h & T & _). exists h, (w_ui w'). split; [exact T|].
  destruct T as [(cs & h1 & u1 & h2 & L & K & ->)|[(e & _ & X)|[(_ & X)|(_ & X)]]]; [|discriminate X..].
  destruct K as [(er & h3 & u2 & h4 & K & _ & ->)|[(e & _ & X)|[(_ & X)|(_ & X)]]]; [|discriminate X..].
  cbn [generate_all_p any_os p_bind] in K. destruct K as [(pair & h5 & u3 & h6 & (_ & seed & -> & _) & _ & ->)|[(e & _ & X)|[(_ & X)|(_ & X)]]]; [|discriminate X..].
  exists (cs_keypair cs seed). apply in_or_app. right. left. reflexivity.
Qed.

(** Whole command lines: first the command line is read, and that only uses the terminal.  If it is refused, nothing
    happens.  Without [--force] no existing file is opened for writing; without [--discard-inputs] or an answer to the
    question no original is removed. *)
Theorem C66_command_lines lib sha512 files args tin tout terr u r h u' : lib_ok lib ->
  main_calls lib sha512 files args tin tout terr u r h u' -> exists new h', h = SUi new :: h' /\
    (h' = [] \/ exists c u1, parse_command_line sha512 files args tin tout terr u = (Ok c, u1) /\
      forall b e, happens h' b e ->
      (forall q x, e = SCreateNew q x -> output_of c q) /\
      (forall q x, e = SCreateOrTruncate q x -> output_of c q /\ asked args OForce) /\
      (forall p x, e = SRemove p x -> exists streams policy force d, c = CryptStreams streams policy force d /\
        (has_failed streams force d p b \/
         (was_converted lib streams force d p b /\ (asked args ODiscardInputs \/ (policy = PromptUser /\ removal_requested policy b)))))).
Proof.
  intros Hl H. destruct (main_inv _ _ _ _ _ _ _ _ _ _ _ H) as (new & h' & -> & D). exists new, h'. split; [reflexivity|]. destruct D as [D|(c & u1 & Ep & Hc)]; [left; exact D|].
  right. exists c, u1. split; [exact Ep|]. intros b e K. destruct c as [streams policy force d|streams force| |]; cbn [run_command_p] in Hc.
  - destruct (crypt_options _ _ _ _ _ _ _ _ _ _ _ _ Ep) as (_ & Fo & De & _).
    assert (Op : forall q, input_opened streams force q b -> output_of (CryptStreams streams policy force d) q) by (intros q (st & _ & _ & _ & I & Eo & _); exists st; auto).
    split; [|split].
    + intros q x ->. apply Op. exact (proj1 (proj2 (proj1 (C66_creations _ _ _ _ _ _ _ _ _ b q Hl Hc) x K))).
    + intros q x ->. destruct (proj2 (C66_creations _ _ _ _ _ _ _ _ _ b q Hl Hc) x K) as (F & O & _). split; [apply Op, O|apply Fo, F].
    + intros p x ->. exists streams, policy, force, d. split; [reflexivity|]. destruct (C66_removals _ _ _ _ _ _ _ _ _ _ _ _ Hl Hc K) as [J|[J [R|R]]]; [left; exact J|right; split; [exact J|]; left; apply De, R|].
      right. split; [exact J|]. right. split; [apply R|]. right. exact R.
  - pose proof (C66_key_pairs _ _ _ _ _ _ _ _ _ _ Hc K) as J. split; [|split].
    + intros q x ->. exact (proj2 J).
    + intros q x ->. destruct J as [F J]. split; [exact J|]. subst force. eapply keypair_force, Ep.
    + intros p x ->. destruct J.
  - apply print_inv in Hc as (out & x & ->). apply happens_in in K as [<-|[]]. split; [|split]; discriminate.
  - apply print_inv in Hc as (out & x & ->). apply happens_in in K as [<-|[]]. split; [|split]; discriminate.
Qed.
Print Assumptions C66_command_lines.

Example C66_command_case : ~ asked case_command OForce /\ exists h p u', main_calls toy_lib case_digest case_secrets case_command false false false (w_ui case_start) (Some (Ok tt)) h u' /\ In (SRemove p (Ok tt)) h.
Proof.
  split; [exact case_not_forced|]. destruct case_removal as (h & b & p & w1 & w2 & u' & T & Hb & _). set (act := parse_command_line case_digest case_secrets case_command false false false).
  exists (SUi (new_events (w_ui case_start) (snd (act (w_ui case_start)))) :: h), p, u'. split; [|right; eapply happens_in, Hb].
  left. exists (CryptStreams case_job DeleteFiles false case_enc), [SUi (new_events (w_ui case_start) (snd (act (w_ui case_start))))], case_ui, h.
  split; [|split; [exact T|reflexivity]]. unfold act. cbn [any_os p_ui]. unfold t_ui. rewrite case_parsed. split; [reflexivity|]. left. split; reflexivity.
Qed.

(** The runs of the commands in Commands are among these runs: those whose calls get the answers of the file system. *)
Theorem C66_runs_of_the_commands entry_of lib sha512 c w r w' :
  run_command entry_of lib sha512 c w r w' ->
  exists h, run_command_p trace (any_os lib) lib sha512 c (w_ui w) (Some r) h (w_ui w') /\ shared entry_of nothing w h w'.
Proof. exact (l_run entry_of lib sha512 c w r w'). Qed.
Print Assumptions C66_runs_of_the_commands.

Example C66_runs_case : exists w', run_command (case_names false false) toy_lib case_digest (CryptStreams case_job DeleteFiles false case_enc) case_world (Ok tt) w'.
Proof. destruct (case_one DeleteFiles) as (w' & H & _); [discriminate|]. exists w'. exact H. Qed.

(** ** C67 *)

(** Other processes may do anything, but leave the files alone that the command names.  Then each call of the command
    only touches outputs that were not there at the start, and removes originals whose conversions are there. *)
Theorem C67_each_call entry_of lib streams policy d u r h u' w b e w1 w2 : lib_ok lib -> wf_fs (w_fs w) ->
  separate entry_of streams -> file_to_file streams -> crypt_calls lib streams policy false d u r h u' ->
  happens h b e -> shared entry_of (leave_alone entry_of streams) w b w1 -> takes entry_of e w1 w2 ->
  allowed_step entry_of lib streams d (w_fs w) (w_fs w1) (w_fs w2).
Proof. intros Hl W Hs Hf H. exact (proj1 (shared_steps entry_of lib streams policy d u r h u' w Hl W Hs Hf H) b e w1 w2). Qed.
Print Assumptions C67_each_call.

(** A success that is reported then means that everything is converted. *)
Theorem C67_reported_success entry_of lib streams policy d u h u' w w' st : lib_ok lib -> wf_fs (w_fs w) ->
  separate entry_of streams -> file_to_file streams -> crypt_calls lib streams policy false d u (Some (Ok tt)) h u' ->
  shared entry_of (leave_alone entry_of streams) w h w' -> In st streams -> stream_done entry_of lib d (w_fs w') st.
Proof. intros Hl W Hs Hf H S I. exact (proj2 (shared_steps entry_of lib streams policy d u (Some (Ok tt)) h u' w Hl W Hs Hf H) w' eq_refl S st I). Qed.
Print Assumptions C67_reported_success.

(** Another process works on the files "dir" and "link" while "notes" is encrypted. *)
Definition case_other_fs : fs := mkFs (fun s => if s =? num "dir" then None else f_entries case_fs s) (f_nodes case_fs).
Example C67_case : exists h u' w', wf_fs case_fs /\ separate (case_names false false) case_job /\ file_to_file case_job /\
  crypt_calls toy_lib case_job DeleteFiles false case_enc case_ui (Some (Ok tt)) h u' /\
  leave_alone (case_names false false) case_job case_other_fs case_fs /\
  shared (case_names false false) (leave_alone (case_names false false) case_job) (mkWorld case_other_fs [] case_ui [] []) h w' /\
  f_entries (w_fs w') (num "notes") = None.
Proof.
  destruct case_run as (h & w' & T & S & _ & D).
  assert (La : leave_alone (case_names false false) case_job case_other_fs case_fs).
  { split; [exact case_wf_fs|]. intros s (st & p & [<-|[]] & K & Es). split; [|reflexivity].
    destruct K as [K|K]; injection K as <-; vm_compute in Es; injection Es as <-; vm_compute; reflexivity. }
  destruct (alone_again (case_names false false) _ _ _ (leave_alone (case_names false false) case_job) eq_refl S (set_fs (mkWorld case_other_fs [] case_ui [] []) case_fs) eq_refl eq_refl) as (v' & A & B & _). exists h, (w_ui w'), v'.
  split; [exact case_wf_fs|]. split; [exact case_job_separate|]. split; [exact case_job_files|]. split; [exact T|]. split; [exact La|].
  split; [eapply sh_other; [|exact A]; exact La|]. rewrite B. exact D.
Qed.

(** If other processes also touch the files of the command, some of this is lost.  An original can be removed with a
    content that was never converted: when another process replaces it between its conversion and its removal. *)
Theorem C67_each_call_while_originals_change_refuted : exists entry_of lib streams policy d u r h u' w b e w1 w2,
  lib_ok lib /\ wf_fs (w_fs w) /\ separate entry_of streams /\ file_to_file streams /\ crypt_calls lib streams policy false d u r h u' /\
  happens h b e /\ shared entry_of anything w b w1 /\ takes entry_of e w1 w2 /\
  ~ allowed_step entry_of lib streams d (w_fs w) (w_fs w1) (w_fs w2).
Proof.
  destruct case_replaced as (h & b & p & w1 & f & w2 & u' & T & Hb & Sb & Tk & _ & _ & _ & N).
  exists (case_names false false), toy_lib, case_job, DeleteFiles, case_enc, case_ui, (Some (Ok tt)), h, u', case_world, b, (SRemove p (Ok tt)), (set_fs w1 f), w2.
  split; [exact toy_lib_ok|]. split; [exact case_wf_fs|]. split; [exact case_job_separate|]. split; [exact case_job_files|]. split; [exact T|]. split; [exact Hb|].
  split; [|split; [exact Tk|exact N]]. apply shared_last; [|exact I]. eapply shared_more; [|exact Sb]. intros ? ? [].
Qed.
Print Assumptions C67_each_call_while_originals_change_refuted.

(** But whatever other processes do: without force, each call of the command changes a directory entry only to create an
    output where there was nothing, or to remove a file as in [C66_removals]; and it changes the content of no file that
    the command has not created itself. *)
Theorem C67_each_call_whatever_others_do entry_of lib streams policy d u r h u' b e w1 w2 : lib_ok lib ->
  crypt_calls lib streams policy false d u r h u' -> happens h b e -> takes entry_of e w1 w2 ->
  (forall s, f_entries (w_fs w2) s = f_entries (w_fs w1) s \/
     (f_entries (w_fs w1) s = None /\ exists st q, In st streams /\ s_output st = Ok (OFile q) /\ entry_of q = Some s) \/
     (f_entries (w_fs w2) s = None /\ exists p, e = SRemove p (Ok tt) /\ entry_of p = Some s /\
        (has_failed streams false d p b \/ (was_converted lib streams false d p b /\ removal_requested policy b)))) /\
  (forall i n n', f_nodes (w_fs w1) i = Some n -> f_nodes (w_fs w2) i = Some n' -> n_content n' <> n_content n ->
     exists q, In (SCreateNew q (Ok (WriteNode i))) b).
Proof.
  intros Hl H K T. split.
  - intros s. destruct (step_entries entry_of e w1 w2 s T) as [X|[(q & i & -> & Eq & N & _)|[(q & q' & i & -> & _)|(p & -> & Ep & _ & N)]]]; [left; exact X| | |].
    + right. left. split; [exact N|]. destruct (proj1 (C66_creations _ _ _ _ _ _ _ _ _ b q Hl H) _ K) as (_ & (st & _ & _ & _ & I & Eo & _) & _). exists st, q. auto.
    + destruct (proj2 (C66_creations _ _ _ _ _ _ _ _ _ b q Hl H) _ K) as (X & _). discriminate X.
    + right. right. split; [exact N|]. exists p. split; [reflexivity|]. split; [exact Ep|]. exact (C66_removals _ _ _ _ _ _ _ _ _ _ _ _ Hl H K).
  - intros i n n' E1 E2 Nc. destruct (step_nodes entry_of e w1 w2 i T) as [X|[(q & -> & [X _])|[(q & ->)|[(d' & rd & src & out & x & ->)|[(t & out & x & ->)|(p & s & -> & _ & _ & X)]]]]].
    + rewrite X, E1 in E2. injection E2 as ->. contradiction Nc. reflexivity.
    + congruence.
    + destruct (proj2 (C66_creations _ _ _ _ _ _ _ _ _ b q Hl H) _ K) as (X & _). discriminate X.
    + destruct (C66_conversions _ _ _ _ _ _ _ _ _ _ _ _ _ _ _ _ Hl H K) as (_ & (st & o & _ & _ & h0 & h1 & h2 & _ & Cr & ->) & _).
      inversion Cr as [q wr Fo Eq Ew|q wr Fo|]; [subst|discriminate Fo]. exists q. apply in_or_app. right. apply in_or_app. right. left. reflexivity.
    + destruct (C66_inputs _ _ _ _ _ _ _ _ _ _ _ Hl H K).
    + contradiction Nc. eapply X; eassumption.
Qed.
Print Assumptions C67_each_call_whatever_others_do.

Example C67_whatever_case : exists h b p w1 w2 u', crypt_calls toy_lib case_job DeleteFiles false case_enc case_ui (Some (Ok tt)) h u' /\
  happens h b (SRemove p (Ok tt)) /\ takes (case_names false false) (SRemove p (Ok tt)) w1 w2 /\ plain_file (w_fs w1) (num "notes") case_newer.
Proof.
  destruct case_replaced as (h & b & p & w1 & f & w2 & u' & T & Hb & _ & Tk & _ & P & _). exists h, b, p, (set_fs w1 f), w2, u'. auto.
Qed.

(** C90: conversions can be repeated with force.

    Vocabulary as in PropFs; [in_order] says that a stream converts a file to a file and that there are ordinary files
    or nothing where it reads and writes, if it can, [is_output] that an entry is that of an output, [attempts] which states of the
    file system repeated and interrupted runs lead to, [ready_over] that a stream's input can be converted (ForceSpec). *)
From Coq.Strings Require Import Byte String.
From Coq Require Import List NArith ZArith Bool PeanoNat Lia.
From Verif Require Import Base BaseFacts Shamir Errors Io HeaderIo HeaderIoSpec StreamSpec Text Util CliErrors Getopts Crypto HeaderCrypto CredSpec FileCrypto Ui UiSpec Paths Cli Fs Commands FsSpec
  FsProofs FsProofs8 FsProofs11 FsProofs12 ForceSpec ForceProofs ForceProofs2 SizeSpec.
From Verif Require Import Proto ToyCrypto FsCases FsCases2 ForceCases PropSize.
Import ListNotations.
Local Open Scope N_scope.

(** A run, with force or without, touches nothing but its outputs and, if that was requested, inputs that have been
    converted.  This holds at every moment. *)
Theorem C90_forced_runs_keep_the_originals : forall entry_of lib streams policy force d w r w' g s,
  lib_ok lib -> wf_fs (w_fs w) -> w_past w = [] ->
  (forall st, In st streams -> in_order entry_of (w_fs w) st) -> separate entry_of streams -> distinct_outputs entry_of streams ->
  crypt_streams entry_of lib streams policy force d w r w' -> In g (moments w') -> ~ is_output entry_of streams s ->
  intact (w_fs w) g s \/
  (deletion_requested policy w w' /\ f_entries g s = None /\
   exists st q b, In st streams /\ converts entry_of st s q /\ plain_file (w_fs w) s b /\ has_conversion entry_of lib d b g q).
Proof.
  intros entry_of lib streams policy force d w r w' g s Hl W Pw O S D H Ig Ns. destruct (crypt_over entry_of lib Hl _ _ _ _ _ _ _ H W O S D) as (M & _ & _).
  destruct (M g Ig) as [I|(_ & X & _)]; [|exact (X s Ns)]. left. unfold moments in I. rewrite Pw in I. destruct I as [<-|[]]. split; auto.
Qed.
Print Assumptions C90_forced_runs_keep_the_originals.

(** If the input of an output is not there then the output, which may be its conversion by an earlier run, is left
    alone. *)
Theorem C90_finished_files_are_left_alone : forall entry_of lib streams policy force d w r w' g st p s q t,
  lib_ok lib -> wf_fs (w_fs w) -> w_past w = [] ->
  (forall st, In st streams -> in_order entry_of (w_fs w) st) -> separate entry_of streams -> distinct_outputs entry_of streams ->
  crypt_streams entry_of lib streams policy force d w r w' -> In g (moments w') ->
  In st streams -> s_input st = IFile p -> entry_of p = Some s -> f_entries (w_fs w) s = None -> s_output st = Ok (OFile q) -> entry_of q = Some t ->
  intact (w_fs w) g t.
Proof.
  intros entry_of lib streams policy force d w r w' g st p s q t Hl W Pw O S D H Ig I Ei Es En Eo Et. destruct (crypt_over entry_of lib Hl _ _ _ _ _ _ _ H W O S D) as (M & _ & _).
  destruct (M g Ig) as [X|(_ & _ & X)]; [|exact (proj2 (X st p s q t I Ei Es Eo Et) En)]. unfold moments in X. rewrite Pw in X. destruct X as [<-|[]]. split; auto.
Qed.
Print Assumptions C90_finished_files_are_left_alone.

(** A successful run converted all files, whatever there was in the place of the outputs. *)
Theorem C90_success_is_complete : forall entry_of lib streams policy force d w w' st,
  lib_ok lib -> wf_fs (w_fs w) ->
  (forall st, In st streams -> in_order entry_of (w_fs w) st) -> separate entry_of streams -> distinct_outputs entry_of streams ->
  crypt_streams entry_of lib streams policy force d w (Ok tt) w' -> In st streams ->
  exists s q b, converts entry_of st s q /\ plain_file (w_fs w) s b /\ has_conversion entry_of lib d b (w_fs w') q.
Proof.
  intros entry_of lib streams policy force d w w' st Hl W O S D H I. destruct (crypt_over entry_of lib Hl _ _ _ _ _ _ _ H W O S D) as (_ & _ & X). exact (X eq_refl st I).
Qed.
Print Assumptions C90_success_is_complete.

(** However often the conversion of some files is attempted and interrupted, each of them is still there as it was, or
    its conversion is there, and all other files are as they were. *)
Theorem C90_attempts_lose_nothing : forall entry_of lib streams d f g,
  lib_ok lib -> wf_fs f -> (forall st, In st streams -> in_order entry_of f st) -> separate entry_of streams -> distinct_outputs entry_of streams ->
  attempts entry_of lib streams d f g ->
  (forall st p s b, In st streams -> s_input st = IFile p -> entry_of p = Some s -> plain_file f s b ->
     plain_file g s b \/ has_been_converted entry_of lib streams d s b g) /\
  (forall s, ~ is_output entry_of streams s -> (forall st p, In st streams -> s_input st = IFile p -> entry_of p <> Some s) -> intact f g s).
Proof.
  intros entry_of lib streams d f g Hl W O S D A. destruct (attempts_still entry_of lib Hl _ _ _ _ A W O S D) as [_ _ X Y]. split; [|exact Y].
  intros st p s b I Ei Es P. destruct (X st p s b I Ei Es P) as [Z|[_ Z]]; auto.
Qed.
Print Assumptions C90_attempts_lose_nothing.

(** If after any such attempts a run with the files that are still there succeeds, then all of the files have been
    converted. *)
Theorem C90_a_successful_run_completes_the_attempts : forall entry_of lib streams l policy force d f w w' st p s b,
  lib_ok lib -> wf_fs f -> (forall st, In st streams -> in_order entry_of f st) -> separate entry_of streams -> distinct_outputs entry_of streams ->
  attempts entry_of lib streams d f (w_fs w) -> w_past w = [] ->
  incl l streams -> distinct_outputs entry_of l ->
  (forall st p s, In st streams -> s_input st = IFile p -> entry_of p = Some s -> f_entries (w_fs w) s <> None -> In st l) ->
  crypt_streams entry_of lib l policy force d w (Ok tt) w' ->
  In st streams -> s_input st = IFile p -> entry_of p = Some s -> plain_file f s b ->
  has_been_converted entry_of lib streams d s b (w_fs w').
Proof.
  intros entry_of lib streams l policy force d f w w' st p s b Hl W O S D A Pw Il Dl Cov H I Ei Es P.
  pose proof (attempts_still entry_of lib Hl _ _ _ _ A W O S D) as [W1 O1 X1 _].
  assert (A2 : attempts entry_of lib streams d f (w_fs w')) by exact (a_run _ _ _ _ _ l policy force w (Ok tt) w' (w_fs w') A Pw Il Dl H (or_introl eq_refl)).
  pose proof (attempts_still entry_of lib Hl _ _ _ _ A2 W O S D) as [_ _ X2 _].
  destruct (crypt_over entry_of lib Hl _ _ _ _ _ _ _ H W1 (fun st I => O1 st (Il st I)) (separate_incl _ _ _ Il S) Dl) as (_ & (_ & L & _) & C).
  destruct (X1 st p s b I Ei Es P) as [Pw1|[Nw _]].
  - assert (Is : In st l) by (apply (Cov st p s I Ei Es); destruct Pw1 as (i & E & _); rewrite E; discriminate).
    destruct (C eq_refl st Is) as (s' & q & b' & (p' & Ei' & Es' & Eo) & P' & Hc). assert (p' = p) by congruence. subst p'. assert (s' = s) by congruence. subst s'.
    assert (b' = b) by exact (plain_unique _ _ _ _ P' Pw1). subst b'. exists st, q. split; [exact I|]. split; [exists p; auto|exact Hc].
  - destruct (X2 st p s b I Ei Es P) as [(i & E & _)|[_ Z]]; [|exact Z]. exfalso.
    assert (No : ~ is_output entry_of l s). { intros (a & q & Ia & Eo & Et). exact (S st a p q s I (Il a Ia) Ei Eo Es Et). }
    destruct (L s No) as [[K _]|(_ & K & _)]; congruence.
Qed.
Print Assumptions C90_a_successful_run_completes_the_attempts.

(** With force, and if nothing stands in the way, a run does succeed, whatever earlier attempts left in the place of the
    outputs; a question that cannot be asked is the only possible error. *)
Theorem C90_force_succeeds : forall entry_of lib streams policy d w r w',
  lib_ok lib -> wf_fs (w_fs w) -> spacious (w_fs w) -> faulty entry_of = false -> stalls entry_of = false -> u_room (w_ui w) = None ->
  (forall st, In st streams -> ready_over entry_of lib d (w_fs w) st) -> separate entry_of streams -> distinct_outputs entry_of streams ->
  crypt_streams entry_of lib streams policy true d w r w' ->
  r = Ok tt \/ (policy = PromptUser /\ exists e, r = Err e /\ In e [CIo; CEof; CNonUtf8; CCannotPrompt]).
Proof.
  intros entry_of lib streams policy d w r w' Hl W Sp So St Wk Rd S D H.
  destruct (crypt_ready_over entry_of lib Hl So streams policy d w r w' H W Wk Sp St Rd S D) as [E|(E & e & T & R)]; [auto|]. right. split; [exact E|]. exists e. split; [exact R|exact T].
Qed.
Print Assumptions C90_force_succeeds.

(** An interrupted run left an empty notes.rypt; without force a second run fails, with force it succeeds and removes
    the original. *)
Definition case_left : world := mkWorld (add_file case_fs (num "notes.rypt") 3) [] case_ui [] [].
Lemma case_left_files s i : f_entries (w_fs case_left) s = Some (EFile i) -> (s = num "notes" /\ i = 1) \/ (s = num "junk.rypt" /\ i = 2) \/ (s = num "notes.rypt" /\ i = 3).
Proof.
  cbn [case_left w_fs add_file f_entries]. unfold update. destruct (N.eqb_spec s (num "notes.rypt")) as [->|_]; [intros [= <-]; auto|]. intros H. destruct (case_files _ _ H); auto.
Qed.
Lemma case_left_wf : wf_fs (w_fs case_left).
Proof.
  split.
  - intros s i H. destruct (case_left_files _ _ H) as [[_ ->]|[[_ ->]|[_ ->]]]; eexists; (split; [reflexivity|cbn; lia]).
  - intros s t i n H K D. destruct (case_left_files _ _ H) as [[-> ->]|[[-> ->]|[-> ->]]], (case_left_files _ _ K) as [[-> E]|[[-> E]|[-> E]]]; try discriminate E; contradiction D; reflexivity.
Qed.
Lemma case_left_spacious : spacious (w_fs case_left).
Proof. apply (spacious_created case_fs (num "notes.rypt") 3 []); [exact case_spacious|]. split; intros s; reflexivity. Qed.
Lemma case_left_separate b b' : separate (case_names b b') [case_stream "notes" "notes.rypt"].
Proof. intros st st' p q s [<-|[]] [<-|[]] [= <-] [= <-] A B. vm_compute in A, B. congruence. Qed.
Lemma case_left_distinct b b' : distinct_outputs (case_names b b') [case_stream "notes" "notes.rypt"].
Proof. intros l1 st l2 st' l3 q q' t X. destruct (case_single _ _ _ _ _ _ _ X). Qed.
Lemma case_left_plain : plain_file (w_fs case_left) (num "notes") case_data.
Proof. exists 1. split; reflexivity. Qed.
Lemma case_left_empty : plain_file (w_fs case_left) (num "notes.rypt") [].
Proof. exists 3. split; reflexivity. Qed.
Lemma case_left_order b b' st : In st [case_stream "notes" "notes.rypt"] -> in_order (case_names b b') (w_fs case_left) st.
Proof.
  intros [<-|[]]. split; [eexists; reflexivity|]. split; [discriminate|]. intros p s q t [= <-] Es [= <-] Et. change (Some (num "notes") = Some s) in Es. change (Some (num "notes.rypt") = Some t) in Et.
  injection Es as <-. injection Et as <-. split; right; eexists; [exact case_left_plain|exact case_left_empty].
Qed.
Lemma case_left_ready b b' st : In st [case_stream "notes" "notes.rypt"] -> ready_over (case_names b b') toy_lib case_enc (w_fs case_left) st.
Proof.
  intros [<-|[]]. exists (at_ "notes"), (num "notes"), case_data, (at_ "notes.rypt"), (num "notes.rypt"). do 2 (split; [reflexivity|]). split; [exact case_left_plain|].
  split; [exact (case_convertible case_data)|]. do 2 (split; [reflexivity|]). right. exists []. exact case_left_empty.
Qed.
Example C90_case : lib_ok toy_lib /\ wf_fs (w_fs case_left) /\ spacious (w_fs case_left) /\ w_past case_left = [] /\ u_room (w_ui case_left) = None /\
  (forall st, In st [case_stream "notes" "notes.rypt"] -> in_order (case_names false false) (w_fs case_left) st) /\
  (forall st, In st [case_stream "notes" "notes.rypt"] -> ready_over (case_names false false) toy_lib case_enc (w_fs case_left) st) /\
  separate (case_names false false) [case_stream "notes" "notes.rypt"] /\ distinct_outputs (case_names false false) [case_stream "notes" "notes.rypt"] /\
  ~ is_output (case_names false false) [case_stream "notes" "notes.rypt"] (num "notes") /\
  exists w', crypt_streams (case_names false false) toy_lib [case_stream "notes" "notes.rypt"] DeleteFiles true case_enc case_left (Ok tt) w' /\
    attempts (case_names false false) toy_lib [case_stream "notes" "notes.rypt"] case_enc (w_fs case_left) (w_fs w') /\
    has_been_converted (case_names false false) toy_lib [case_stream "notes" "notes.rypt"] case_enc (num "notes") case_data (w_fs w').
Proof.
  split; [exact toy_lib_ok|]. split; [exact case_left_wf|]. split; [exact case_left_spacious|]. split; [reflexivity|]. split; [reflexivity|]. split; [apply case_left_order|].
  split; [apply case_left_ready|]. split; [apply case_left_separate|]. split; [apply case_left_distinct|]. split.
  { intros (st & q & [<-|[]] & [= <-] & E). vm_compute in E. discriminate E. }
  destruct (total_crypt (case_names false false) toy_lib toy_lib_ok [case_stream "notes" "notes.rypt"] DeleteFiles true case_enc case_left case_left_spacious) as ((r & w' & H) & _).
  assert (E : r = Ok tt).
  { destruct (C90_force_succeeds (case_names false false) toy_lib _ _ _ _ _ _ toy_lib_ok case_left_wf case_left_spacious eq_refl eq_refl eq_refl (case_left_ready false false) (case_left_separate _ _) (case_left_distinct _ _) H) as [E|[E _]]; [exact E|discriminate E]. }
  rewrite E in H. clear E r. exists w'. split; [exact H|].
  pose proof (a_start (case_names false false) toy_lib [case_stream "notes" "notes.rypt"] case_enc (w_fs case_left)) as A0. split.
  - exact (a_run _ _ _ _ _ _ _ _ _ _ _ _ A0 eq_refl (incl_refl _) (case_left_distinct _ _) H (or_introl eq_refl)).
  - apply (C90_a_successful_run_completes_the_attempts (case_names false false) toy_lib _ [case_stream "notes" "notes.rypt"] DeleteFiles true case_enc (w_fs case_left) case_left w' (case_stream "notes" "notes.rypt") (at_ "notes") (num "notes") case_data
      toy_lib_ok case_left_wf (case_left_order _ _) (case_left_separate _ _) (case_left_distinct _ _) A0 eq_refl (incl_refl _) (case_left_distinct _ _)).
    + intros st p s I _ _ _. exact I.
    + exact H.
    + left. reflexivity.
    + reflexivity.
    + reflexivity.
    + exact case_left_plain.
Qed.

Lemma case_order b b' : in_order (case_names b b') case_fs (case_stream "notes" "notes.rypt").
Proof.
  split; [eexists; reflexivity|]. split; [discriminate|]. intros p s q t [= <-] Es [= <-] Et. change (Some (num "notes") = Some s) in Es. change (Some (num "notes.rypt") = Some t) in Et.
  injection Es as <-. injection Et as <-. split; [right; exists case_data; exact case_plain|left; reflexivity].
Qed.
(** After a finished run that removed the original, repeating it with force fails, and leaves the conversion alone. *)
Example C90_finished_case : exists w1, wf_fs (w_fs w1) /\ f_entries (w_fs w1) (num "notes") = None /\ f_entries (w_fs w1) (num "notes.rypt") <> None /\
  (forall st, In st [case_stream "notes" "notes.rypt"] -> in_order (case_names false false) (w_fs w1) st) /\
  attempts (case_names false false) toy_lib [case_stream "notes" "notes.rypt"] case_enc case_fs (w_fs w1).
Proof.
  destruct (case_one DeleteFiles) as (w1 & H & _ & Dl); [discriminate|]. specialize (Dl eq_refl). exists w1.
  assert (O : forall st, In st [case_stream "notes" "notes.rypt"] -> in_order (case_names false false) case_fs st).
  { intros st [<-|[]]. apply case_order. }
  pose proof (a_run (case_names false false) toy_lib _ case_enc case_fs [case_stream "notes" "notes.rypt"] _ _ case_world _ _ _ (a_start _ _ _ _ _) eq_refl (incl_refl _) (case_left_distinct _ _) H (or_introl eq_refl)) as A.
  pose proof (attempts_still _ toy_lib toy_lib_ok _ _ _ _ A case_wf_fs O (case_left_separate _ _) (case_left_distinct _ _)) as [W1 O1 X1 _].
  split; [exact W1|]. split; [exact Dl|]. split; [|split; [exact O1|exact A]].
  destruct (X1 (case_stream "notes" "notes.rypt") (at_ "notes") (num "notes") case_data (or_introl eq_refl) eq_refl eq_refl case_plain) as [(i & E & _)|(_ & st & q & [<-|[]] & (p & _ & _ & Eo) & t & c & Et & (j & E & _) & _)].
  - rewrite Dl in E. discriminate E.
  - injection Eo as <-. vm_compute in Et. injection Et as <-. assert (Z : f_entries (w_fs w1) (num "notes.rypt") = Some (EFile j)) by exact E. rewrite Z. discriminate.
Qed.

(** The outputs must be distinct: with rypt --force --discard-inputs notes notes, if the file cannot be read the second
    time, its conversion is removed and then, because the first conversion succeeded, the file itself. *)
Theorem C90_repeated_inputs_refuted : exists entry_of lib streams d w w' s b,
  lib_ok lib /\ wf_fs (w_fs w) /\ w_past w = [] /\ (forall st, In st streams -> in_order entry_of (w_fs w) st) /\ separate entry_of streams /\
  crypt_streams entry_of lib streams DeleteFiles true d w (Err CComposite) w' /\
  plain_file (w_fs w) s b /\ f_entries (w_fs w') s = None /\ ~ has_been_converted entry_of lib streams d s b (w_fs w').
Proof.
  destruct forced_twice as (w' & H & A & B). exists forced_names, toy_lib, [forced_stream; forced_stream], case_enc, case_world, w', (num "notes"), case_data.
  split; [exact toy_lib_ok|]. split; [exact case_wf_fs|]. split; [reflexivity|]. split.
  { intros st Ist. assert (st = forced_stream) as -> by (destruct Ist as [<-|[<-|[]]]; reflexivity). apply case_order. }
  split.
  { intros st st' p q s I I'. assert (st = forced_stream) as -> by (destruct I as [<-|[<-|[]]]; reflexivity). assert (st' = forced_stream) as -> by (destruct I' as [<-|[<-|[]]]; reflexivity).
    intros [= <-] [= <-] X Y. vm_compute in X, Y. congruence. }
  split; [exact H|]. split; [exact case_plain|]. split; [exact A|].
  intros (st & q & I & (p & _ & _ & Eo) & t & c & Et & (j & E & _) & _). assert (st = forced_stream) as -> by (destruct I as [<-|[<-|[]]]; reflexivity).
  injection Eo as <-. assert (t = forced_out) as -> by (assert (Z : forced_names (at_ "notes.rypt") = Some forced_out) by reflexivity; rewrite Z in Et; injection Et as <-; reflexivity).
  rewrite B in E. discriminate E.
Qed.
Print Assumptions C90_repeated_inputs_refuted.

(** And different files can have the same output (C33).  Without force the second conversion fails.  With force,
    rypt --force --discard-inputs notes notes. succeeds: it encrypts both files to notes.rypt, the second over the first, and
    removes both.  Nothing fails, and the first file is lost. *)
Definition case_collision : world := mkWorld (mkFs
  (fun s => if s =? num "notes" then Some (EFile 1) else if s =? num "notes." then Some (EFile 2) else None)
  (fun i => if i =? 1 then Some (mkNode true case_data 1) else if i =? 2 then Some (mkNode true case_junk 1) else None)) [] case_ui [] [].
Definition case_collision_command : list text := map lit ["--password-file"; "pw"; "--force"; "--discard-inputs"; "notes"; "notes."]%string.
Lemma case_collision_parsed : parse_command_line case_digest case_secrets case_collision_command false false false (w_ui case_start) =
  (Ok (CryptStreams [case_stream "notes" "notes.rypt"; case_stream "notes." "notes.rypt"] DeleteFiles true case_enc), case_ui).
Proof. vm_compute. reflexivity. Qed.
Lemma case_collision_files s i : f_entries (w_fs case_collision) s = Some (EFile i) -> (s = num "notes" /\ i = 1) \/ (s = num "notes." /\ i = 2).
Proof.
  cbn [case_collision w_fs f_entries]. destruct (N.eqb_spec s (num "notes")) as [->|_]; [intros [= <-]; auto|]. destruct (N.eqb_spec s (num "notes.")) as [->|_]; [intros [= <-]; auto|discriminate].
Qed.
Lemma case_collision_wf : wf_fs (w_fs case_collision).
Proof.
  split.
  - intros s i H. destruct (case_collision_files _ _ H) as [[_ ->]|[_ ->]]; eexists; (split; [reflexivity|cbn; lia]).
  - intros s t i n H K D. destruct (case_collision_files _ _ H) as [[-> ->]|[-> ->]], (case_collision_files _ _ K) as [[-> E]|[-> E]]; try discriminate E; contradiction D; reflexivity.
Qed.
Lemma case_collision_spacious : spacious (w_fs case_collision).
Proof.
  intros l. destruct (case_spacious l) as (i & [U V] & N). exists i. split; [|exact N]. split.
  - exact U.
  - intros t X. destruct (case_collision_files _ _ X) as [[_ ->]|[_ ->]]; discriminate U.
Qed.
Lemma case_collision_size c : is_conversion toy_lib case_enc case_data c -> ~ is_conversion toy_lib case_enc case_junk c.
Proof.
  intros A B.
  assert (W : wf_cred (Password [x70])) by constructor.
  assert (Z : single (Password [x70])) by (intros m n t; discriminate).
  assert (La : lenN case_data <= 1044480) by (vm_compute; discriminate). assert (Lb : lenN case_junk <= 1044480) by (vm_compute; discriminate).
  pose proof (C81_one_recipient_costs_184_bytes toy_lib (Password [x70]) false case_data c toy_lib_ok W Z A La) as Ea.
  pose proof (C81_one_recipient_costs_184_bytes toy_lib (Password [x70]) false case_junk c toy_lib_ok W Z B Lb) as Eb.
  rewrite Ea in Eb. vm_compute in Eb. discriminate Eb.
Qed.
Theorem C90_colliding_names_refuted : exists entry_of lib sha512 files args u u' streams d w w' s b,
  lib_ok lib /\ wf_fs (w_fs w) /\ w_past w = [] /\ faulty entry_of = false /\ stalls entry_of = false /\
  parse_command_line sha512 files args false false false u = (Ok (CryptStreams streams DeleteFiles true d), u') /\
  crypt_streams entry_of lib streams DeleteFiles true d w (Ok tt) w' /\
  plain_file (w_fs w) s b /\ f_entries (w_fs w') s = None /\ ~ has_been_converted entry_of lib streams d s b (w_fs w').
Proof.
  destruct (total_crypt (case_names false false) toy_lib toy_lib_ok [case_stream "notes" "notes.rypt"; case_stream "notes." "notes.rypt"] DeleteFiles true case_enc case_collision case_collision_spacious) as ((r & w' & H) & _).
  assert (P1 : plain_file (w_fs case_collision) (num "notes") case_data) by (exists 1; split; reflexivity).
  assert (P2 : plain_file (w_fs case_collision) (num "notes.") case_junk) by (exists 2; split; reflexivity).
  assert (D1 : num "notes" <> num "notes.rypt") by (vm_compute; discriminate). assert (D2 : num "notes." <> num "notes.rypt") by (vm_compute; discriminate).
  destruct (collision (case_names false false) toy_lib toy_lib_ok eq_refl _ _ _ _ _ _ (at_ "notes") (num "notes") case_data (at_ "notes.") (num "notes.") case_junk (at_ "notes.rypt") (num "notes.rypt") H
    case_collision_wf eq_refl case_collision_spacious eq_refl eq_refl eq_refl P1 (case_convertible case_data) eq_refl eq_refl eq_refl P2 (case_convertible case_junk) eq_refl eq_refl D1 D2 (or_introl eq_refl)) as (-> & A & _ & t & c & Et & Pc & Ic).
  exists (case_names false false), toy_lib, case_digest, case_secrets, case_collision_command, (w_ui case_start), case_ui, [case_stream "notes" "notes.rypt"; case_stream "notes." "notes.rypt"], case_enc, case_collision, w', (num "notes"), case_data.
  split; [exact toy_lib_ok|]. split; [exact case_collision_wf|]. split; [reflexivity|]. split; [reflexivity|]. split; [reflexivity|]. split; [exact case_collision_parsed|].
  split; [exact H|]. split; [exact P1|]. split; [exact A|].
  intros (st & q & Ist & (p & _ & _ & Eo) & t' & c' & Et' & Pc' & Ic'). assert (q = at_ "notes.rypt") as -> by (destruct Ist as [<-|[<-|[]]]; injection Eo as <-; reflexivity).
  assert (t' = t) as -> by congruence. assert (c' = c) as -> by exact (plain_unique _ _ _ _ Pc' Pc). exact (case_collision_size c Ic' Ic).
Qed.
Print Assumptions C90_colliding_names_refuted.

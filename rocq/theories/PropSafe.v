(** C91: commands that name their files without ambiguity lose no file, with or without force.

    Vocabulary: [named_after] is the relation between the names of files and of their conversions, [unambiguous] says
    which names are needed (SafeSpec); otherwise as in PropFs, PropForce and PropCommandLine. *)
From Coq.Strings Require Import Byte String.
From Coq Require Import List NArith ZArith Bool PeanoNat Lia.
From Verif Require Import Base BaseFacts Shamir Errors Io Text Util CliErrors Getopts Crypto HeaderCrypto CredSpec Ui UiSpec Paths PathSpec CliCreds Cli CliSpec OptSpec OptProofs CmdSpec
  Fs Commands FsSpec FsProofs FsProofs4 FsProofs2 FsProofs10 FlowSpec FlowProofs ForceSpec ForceProofs SafeSpec SafeProofs PropFs PropForce.
From Verif Require Import Proto ToyCrypto FsCases FsCases2.
Import ListNotations.
Local Open Scope N_scope.

(** At every moment of the run every plain file is there unchanged; or it is a named file, removing it was not
    forbidden, and its complete conversion is there under the name that is due to it; or force was given and it has the
    name of the conversion of a named file that was there. *)
Theorem C91_no_file_is_lost : forall entry_of lib sha512 files dir s args occs free tin tout terr w status w' g e b,
  lib_ok lib -> wf_fs (w_fs w) -> w_past w = [] ->
  means 0 args occs free -> asks_to dir occs -> suffix occs s -> unambiguous entry_of (w_fs w) dir s free ->
  main entry_of lib sha512 files args tin tout terr w status w' -> In g (moments w') -> plain_file (w_fs w) e b ->
  plain_file g e b \/
  (~ given OKeepInputs occs /\ exists a q streams policy force d u, In a free /\ entry_of (components a) = Some e /\ named_after dir s (components a) q /\
     parse_command_line sha512 files args tin tout terr (w_ui w) = (Ok (CryptStreams streams policy force d), u) /\ has_conversion entry_of lib d b g q) \/
  (given OForce occs /\ exists a q, In a free /\ named_after dir s (components a) q /\ entry_of q = Some e /\
     forall i, entry_of (components a) = Some i -> f_entries (w_fs w) i <> None).
Proof.
  intros entry_of lib sha512 files dir s args occs free tin tout terr w status w' g e b Hl W Pw R As Sx U H Ig Pb.
  destruct (run_cases _ _ _ _ _ _ _ _ _ _ _ _ _ _ _ R As Sx U Pw H) as [(K & _)|(streams & policy & force & d & u & r & w1 & Ep & H1 & Q & _ & Fo & Or & _ & Gs & Ex & F)].
  { left. rewrite (K g Ig). exact Pb. }
  rewrite (moments_same _ _ Q) in Ig.
  pose proof (safe_order entry_of _ _ _ _ _ _ Gs Ex U F) as O. pose proof (safe_separate entry_of _ _ _ _ _ _ Gs Ex U F) as S. pose proof (safe_distinct entry_of _ _ _ _ _ _ Gs Ex U F) as D.
  assert (Conv : deletion_requested policy (set_ui w u) w1 -> (exists st q b', In st streams /\ converts entry_of st e q /\ plain_file (w_fs w) e b' /\ has_conversion entry_of lib d b' g q) ->
    ~ given OKeepInputs occs /\ exists a q streams policy force d u, In a free /\ entry_of (components a) = Some e /\ named_after dir s (components a) q /\
     parse_command_line sha512 files args tin tout terr (w_ui w) = (Ok (CryptStreams streams policy force d), u) /\ has_conversion entry_of lib d b g q).
  { intros Dr (st & q & b' & I & (p & Ei & Ee & Eo) & Pb' & Hc). split.
    - destruct Dr as [->|[-> _]]; apply Or.
    - destruct (stream_of (mkMatches occs free) _ F _ I) as (a & Ia & Ea & _). exists a, q, streams, policy, force, d, u. split; [exact Ia|]. split; [congruence|].
      split; [eapply (stream_result entry_of (mkMatches occs free)); eassumption|]. split; [exact Ep|]. rewrite (plain_same _ _ _ _ Pb Pb'). exact Hc. }
  destruct force.
  - destruct (output_dec entry_of streams e) as [(st & q & I & Eo & Eq)|N].
    + destruct (stream_of (mkMatches occs free) _ F _ I) as (a & Ia & Ea & _).
      assert (T : (exists i, entry_of (components a) = Some i /\ f_entries (w_fs w) i = None) \/ forall i, entry_of (components a) = Some i -> f_entries (w_fs w) i <> None).
      { destruct (entry_of (components a)) as [i|]; [|right; discriminate]. destruct (f_entries (w_fs w) i) eqn:Ef; [right|left; eauto]. intros j [= <-]. congruence. }
      destruct T as [(i & Ei & Ef)|T].
      * left. eapply plain_intact; [exact Pb|]. exact (C90_finished_files_are_left_alone _ _ _ _ _ _ (set_ui w u) _ _ _ _ _ _ _ _ Hl W Pw O S D H1 Ig I Ea Ei Ef Eo Eq).
      * right. right. split; [apply Fo; reflexivity|]. exists a, q. split; [exact Ia|]. split; [eapply (stream_result entry_of (mkMatches occs free)); eassumption|]. split; [exact Eq|exact T].
    + destruct (C90_forced_runs_keep_the_originals _ _ _ _ _ _ (set_ui w u) _ _ _ _ Hl W Pw O S D H1 Ig N) as [K|(Dr & _ & K)]; [left; eapply plain_intact; eassumption|right; left; exact (Conv Dr K)].
  - assert (Ne : f_entries (w_fs w) e <> None) by (destruct Pb as (i & E & _); congruence).
    assert (Ff : file_to_file streams) by (intros st p I _; destruct (stream_of (mkMatches occs free) _ F _ I) as (a & _ & _ & No); exact No).
    destruct (C30_original_or_conversion_at_every_moment _ _ _ _ _ (set_ui w u) _ _ Hl W Pw Ff S H1 g e Ig Ne) as [K|(Dr & K)]; [left; eapply plain_intact; eassumption|right; left; exact (Conv Dr K)].
Qed.
Print Assumptions C91_no_file_is_lost.

(** Whatever is not at the place of a named file or of its conversion stays as it is: files, directories, links. *)
Theorem C91_nothing_else_changes : forall entry_of lib sha512 files dir s args occs free tin tout terr w status w' g e,
  lib_ok lib -> wf_fs (w_fs w) -> w_past w = [] ->
  means 0 args occs free -> asks_to dir occs -> suffix occs s -> unambiguous entry_of (w_fs w) dir s free ->
  main entry_of lib sha512 files args tin tout terr w status w' -> In g (moments w') ->
  (forall x, place dir s free x -> entry_of x <> Some e) -> intact (w_fs w) g e.
Proof.
  intros entry_of lib sha512 files dir s args occs free tin tout terr w status w' g e Hl W Pw R As Sx U H Ig Np.
  destruct (run_cases _ _ _ _ _ _ _ _ _ _ _ _ _ _ _ R As Sx U Pw H) as [(K & _)|(streams & policy & force & d & u & r & w1 & Ep & H1 & Q & _ & Fo & Or & _ & Gs & Ex & F)].
  { rewrite (K g Ig). split; auto. }
  rewrite (moments_same _ _ Q) in Ig.
  pose proof (safe_order entry_of _ _ _ _ _ _ Gs Ex U F) as O. pose proof (safe_separate entry_of _ _ _ _ _ _ Gs Ex U F) as S. pose proof (safe_distinct entry_of _ _ _ _ _ _ Gs Ex U F) as D.
  assert (N : ~ is_output entry_of streams e).
  { intros (st & q & I & Eo & Eq). apply (Np q); [eapply (result_place entry_of (mkMatches occs free)); eassumption|exact Eq]. }
  destruct (C90_forced_runs_keep_the_originals _ _ _ _ _ _ (set_ui w u) _ _ _ _ Hl W Pw O S D H1 Ig N) as [K|(_ & _ & st & q & b & I & (p & Ei & Ee & _) & _)]; [exact K|].
  destruct (Np p); [eapply (stream_place (mkMatches occs free)); eassumption|exact Ee].
Qed.
Print Assumptions C91_nothing_else_changes.

(** If the run succeeds, every named file was a plain one, and its complete conversion is there under the name that is
    due to it. *)
Theorem C91_success_is_complete : forall entry_of lib sha512 files dir s args occs free tin tout terr w w' a,
  lib_ok lib -> wf_fs (w_fs w) -> w_past w = [] ->
  means 0 args occs free -> asks_to dir occs -> suffix occs s -> unambiguous entry_of (w_fs w) dir s free -> ~ to_stdout occs free ->
  main entry_of lib sha512 files args tin tout terr w 0 w' -> In a free ->
  exists e b q streams policy force d u, entry_of (components a) = Some e /\ plain_file (w_fs w) e b /\ named_after dir s (components a) q /\
    parse_command_line sha512 files args tin tout terr (w_ui w) = (Ok (CryptStreams streams policy force d), u) /\ has_conversion entry_of lib d b (w_fs w') q.
Proof.
  intros entry_of lib sha512 files dir s args occs free tin tout terr w w' a Hl W Pw R As Sx U No H Ia.
  destruct (run_cases _ _ _ _ _ _ _ _ _ _ _ _ _ _ _ R As Sx U Pw H) as [(_ & K)|(streams & policy & force & d & u & r & w1 & Ep & H1 & Q & Es & Fo & Or & _ & Gs & Ex & F)].
  { destruct No. apply K; [reflexivity|]. eapply args_not_empty; eassumption. }
  assert (r = Ok tt) as -> by (destruct r as [[]| |]; [reflexivity|discriminate Es..]).
  pose proof (safe_order entry_of _ _ _ _ _ _ Gs Ex U F) as O. pose proof (safe_separate entry_of _ _ _ _ _ _ Gs Ex U F) as S. pose proof (safe_distinct entry_of _ _ _ _ _ _ Gs Ex U F) as D.
  destruct (stream_for (mkMatches occs free) _ F a Ia) as (st & I & Ea).
  destruct (C90_success_is_complete _ _ _ _ _ _ (set_ui w u) _ _ Hl W O S D H1 I) as (e & q & b & (p & Ei & Ee & Eo) & Pb & Hc).
  exists e, b, q, streams, policy, force, d, u. split; [congruence|]. split; [exact Pb|]. split; [eapply (stream_result entry_of (mkMatches occs free)); eassumption|]. split; [exact Ep|].
  rewrite (proj1 Q). exact Hc.
Qed.
Print Assumptions C91_success_is_complete.

(** rypt --password-file pw --force --discard-inputs notes, where an interrupted run has left an empty notes.rypt. *)
Definition safe_command : list text := map lit ["--password-file"; "pw"; "--force"; "--discard-inputs"; "notes"]%string.
Definition safe_start : world := set_ui case_left (w_ui case_start).
Lemma safe_parsed : parse_command_line case_digest case_secrets safe_command false false false (w_ui safe_start) = (Ok (CryptStreams [case_stream "notes" "notes.rypt"] DeleteFiles true case_enc), case_ui).
Proof. vm_compute. reflexivity. Qed.
Lemma safe_place x : place Encrypt (lit "rypt") [lit "notes"] x -> x = at_ "notes" \/ x = at_ "notes.rypt".
Proof.
  intros (a & [<-|[]] & [->|(d & n & F & ->)]); [left; reflexivity|right]. unfold is_file in *. change (components (lit "notes")) with ([] ++ [Normal (lit "notes")]) in F.
  apply app_inj_tail in F as [<- F]. injection F as <-. reflexivity.
Qed.
Lemma safe_unambiguous : unambiguous (case_names false false) (w_fs safe_start) Encrypt (lit "rypt") [lit "notes"].
Proof.
  constructor.
  - split; [discriminate|]. vm_compute. intuition discriminate.
  - repeat constructor. intros [].
  - intros a [<-|[]]. exists [], (lit "notes"). split; [reflexivity|]. intros (b & E). apply (f_equal (@rev N)) in E. rewrite rev_app_distr in E. discriminate E.
  - intros a b [<-|[]] [<-|[]] N. assert (P : place Encrypt (lit "rypt") [lit "notes"] (components (lit "notes"))) by (exists (lit "notes"); split; left; reflexivity).
    destruct N as (d & n & F & E). unfold is_file in *. rewrite F in E. apply app_inj_tail in E as [_ E]. injection E as E. apply (f_equal (@length N)) in E. rewrite !app_length in E. cbn in E. lia.
  - intros x y Px Py E _. destruct (safe_place x Px) as [->| ->], (safe_place y Py) as [->| ->]; try reflexivity; vm_compute in E; discriminate E.
  - intros x e Px E. destruct (safe_place x Px) as [->| ->].
    + change (Some (num "notes") = Some e) in E. injection E as <-. right. eexists. exact case_left_plain.
    + change (Some (num "notes.rypt") = Some e) in E. injection E as <-. right. eexists. exact case_left_empty.
Qed.
Example C91_case : exists occs, lib_ok toy_lib /\ wf_fs (w_fs safe_start) /\ w_past safe_start = [] /\ means 0 safe_command occs [lit "notes"] /\ asks_to Encrypt occs /\ suffix occs (lit "rypt") /\
  ~ to_stdout occs [lit "notes"] /\ given OForce occs /\ plain_file (w_fs safe_start) (num "notes") case_data /\ plain_file (w_fs safe_start) (num "notes.rypt") [] /\
  unambiguous (case_names false false) (w_fs safe_start) Encrypt (lit "rypt") [lit "notes"] /\
  exists w', main (case_names false false) toy_lib case_digest case_secrets safe_command false false false safe_start 0 w'.
Proof.
  destruct (parse_options safe_command) as [m| |] eqn:P; try discriminate P. destruct (proj1 (options_read _ _) P) as [M _]. vm_compute in P. injection P as <-. cbn [m_occs m_free] in M.
  eexists. split; [exact toy_lib_ok|]. split; [exact case_left_wf|]. split; [reflexivity|]. split; [exact M|].
  split. { intros o (x & I & <-). cbn [In] in I. repeat (destruct I as [<-|I]); try destruct I; cbn; intuition discriminate. }
  split. { left. split; [|reflexivity]. intros (x & I & E). cbn [In] in I. repeat (destruct I as [<-|I]); try destruct I; discriminate E. }
  split. { intros [(x & I & E)|[E|E]]; [|discriminate E|discriminate E]. cbn [In] in I. repeat (destruct I as [<-|I]); try destruct I; discriminate E. }
  split. { eexists. split; [right; left; reflexivity|reflexivity]. }
  split; [exact case_left_plain|]. split; [exact case_left_empty|]. split; [exact safe_unambiguous|].
  destruct C90_case as (_ & _ & _ & _ & _ & _ & _ & _ & _ & _ & w' & H & _). exists w'. exists (Ok tt), w'. split; [|split; reflexivity].
  left. exists (CryptStreams [case_stream "notes" "notes.rypt"] DeleteFiles true case_enc), case_left. split; [|exact H]. split; [rewrite safe_parsed; reflexivity..].
Qed.

(** Names of files to be decrypted: rypt -d junk.rypt. *)
Lemma safe_place_back x : place Decrypt (lit "rypt") [lit "junk.rypt"] x -> x = at_ "junk.rypt" \/ x = at_ "junk".
Proof.
  intros (a & [<-|[]] & [->|(d & n & F & ->)]); [left; reflexivity|right]. unfold is_file in *. change (components (lit "junk.rypt")) with ([] ++ [Normal (lit "junk" ++ lit "." ++ lit "rypt")]) in F.
  apply app_inj_tail in F as [<- F]. injection F as F. change (lit "junk" ++ lit "." ++ lit "rypt" = n ++ lit "." ++ lit "rypt") in F. apply app_inv_tail in F as <-. reflexivity.
Qed.
Example C91_decryption_case : unambiguous (case_names false false) case_fs Decrypt (lit "rypt") [lit "junk.rypt"].
Proof.
  constructor.
  - split; [discriminate|]. vm_compute. intuition discriminate.
  - repeat constructor. intros [].
  - intros a [<-|[]]. exists [], (lit "junk.rypt"). split; [reflexivity|]. intros (b & E). discriminate E.
  - intros a b [<-|[]] [<-|[]] (d & n & F & E). unfold is_file in *. rewrite F in E. apply app_inj_tail in E as [_ E]. injection E as E. apply (f_equal (@length N)) in E. rewrite !app_length in E. cbn in E. lia.
  - intros x y Px Py E _. destruct (safe_place_back x Px) as [->| ->], (safe_place_back y Py) as [->| ->]; try reflexivity; vm_compute in E; discriminate E.
  - intros x e Px E. destruct (safe_place_back x Px) as [->| ->].
    + change (Some (num "junk.rypt") = Some e) in E. injection E as <-. right. exists case_junk. exists 2. split; reflexivity.
    + change (Some (num "junk") = Some e) in E. injection E as <-. left. reflexivity.
Qed.

(** C92: what generating keys leaves behind, with or without force.

    Vocabulary: [public_of] is the relation between the names of the two files of a pair, [unambiguous_keys] says which
    names are needed, [stage] how far the two files have come, [complete_pair] that they are there and belong together
    (PairSpec); otherwise as in PropFs and PropCommandLine. *)
From Coq.Strings Require Import Byte String.
From Coq Require Import List NArith ZArith Bool PeanoNat Lia.
From Verif Require Import Base BaseFacts Shamir Errors Io Text Util CliErrors Getopts Crypto HeaderCrypto CredSpec KeyFiles Ui UiSpec Paths PathSpec CliCreds Cli CliSpec OptSpec OptProofs CmdSpec
  Fs Commands FsSpec FsProofs FsProofs10 FlowSpec FlowProofs ForceSpec PairSpec PairProofs.
From Verif Require CmdProofs.
From Verif Require Import Proto ToyCrypto FsCases FsCases2 PairCases.
Import ListNotations.
Local Open Scope N_scope.

(** At every moment each pair of files is as it was, or has a part of a new public key and the old private file, or has
    the whole new public key and a part of the private key that belongs to it. *)
Theorem C92_pairs_at_every_moment : forall entry_of lib sha512 files args occs free tin tout terr w status w' g a d n n',
  wf_fs (w_fs w) -> w_past w = [] -> means 0 args occs free -> asks_for_keys occs -> unambiguous_keys entry_of (w_fs w) free ->
  main entry_of lib sha512 files args tin tout terr w status w' -> In g (moments w') ->
  In a free -> a <> lit "-" -> is_file (components a) d n -> public_name n n' ->
  stage entry_of lib sha512 (w_fs w) g (d ++ [Normal n']) (components a).
Proof.
  intros entry_of lib sha512 files args occs free tin tout terr w status w' g a d n n' W Pw R As U H Ig Ia Na Fn Pn.
  destruct (generation_cases _ _ _ _ _ _ _ _ _ _ _ _ _ R As (args_not_empty _ _ _ _ _ R Ia) U W Pw H) as [A _]. exact (proj2 (A g Ig) a d n n' Ia Na Fn Pn).
Qed.
Print Assumptions C92_pairs_at_every_moment.

(** Exit status 0 means that all pairs are complete, also where there were other files before. *)
Theorem C92_success_leaves_complete_pairs : forall entry_of lib sha512 files args occs free tin tout terr w w' a d n n',
  wf_fs (w_fs w) -> w_past w = [] -> means 0 args occs free -> asks_for_keys occs -> unambiguous_keys entry_of (w_fs w) free ->
  main entry_of lib sha512 files args tin tout terr w 0 w' ->
  In a free -> a <> lit "-" -> is_file (components a) d n -> public_name n n' ->
  complete_pair entry_of lib sha512 (w_fs w') (d ++ [Normal n']) (components a).
Proof.
  intros entry_of lib sha512 files args occs free tin tout terr w w' a d n n' W Pw R As U H Ia Na Fn Pn.
  destruct (generation_cases _ _ _ _ _ _ _ _ _ _ _ _ _ R As (args_not_empty _ _ _ _ _ R Ia) U W Pw H) as [_ A]. exact (A eq_refl a d n n' Ia Na Fn Pn).
Qed.
Print Assumptions C92_success_leaves_complete_pairs.

(** Nothing else changes. *)
Theorem C92_nothing_else_changes : forall entry_of lib sha512 files args occs free tin tout terr w status w' g u,
  wf_fs (w_fs w) -> w_past w = [] -> means 0 args occs free -> asks_for_keys occs -> args <> [] -> unambiguous_keys entry_of (w_fs w) free ->
  main entry_of lib sha512 files args tin tout terr w status w' -> In g (moments w') ->
  (forall x, key_place free x -> entry_of x <> Some u) -> intact (w_fs w) g u.
Proof.
  intros entry_of lib sha512 files args occs free tin tout terr w status w' g u W Pw R As Na U H Ig Np.
  destruct (generation_cases _ _ _ _ _ _ _ _ _ _ _ _ _ R As Na U W Pw H) as [A _]. exact (proj1 (A g Ig) u Np).
Qed.
Print Assumptions C92_nothing_else_changes.

(** A pair is there, and `rypt -f -g me` replaces it. *)
Example C92_case : exists occs w', lib_ok toy_lib /\ wf_fs (w_fs pair_start) /\ w_past pair_start = [] /\ means 0 pair_command occs [lit "me"] /\ asks_for_keys occs /\
  unambiguous_keys (case_names false false) (w_fs pair_start) [lit "me"] /\
  main (case_names false false) toy_lib case_digest case_secrets pair_command false false false pair_start 0 w' /\
  In (lit "me") [lit "me"] /\ lit "me" <> lit "-" /\ is_file (components (lit "me")) [] (lit "me") /\ public_name (lit "me") (lit "me.pub") /\
  complete_pair (case_names false false) toy_lib case_digest (w_fs pair_start) (at_ "me.pub") (at_ "me") /\
  plain_file (w_fs w') (num "me.pub") (utf8 case_public) /\ plain_file (w_fs w') (num "me") (utf8 case_private) /\ utf8 case_private <> utf8 (snd old_pair).
Proof.
  destruct pair_means as (occs & M & As). destruct pair_runs as (w' & H & F & G). exists occs, w'.
  split; [exact toy_lib_ok|]. split; [exact pair_wf|]. split; [reflexivity|]. split; [exact M|]. split; [exact As|]. split; [apply pair_unambiguous|]. split; [exact H|].
  split; [left; reflexivity|]. split; [intros E; vm_compute in E; discriminate E|]. split; [reflexivity|]. split; [exact pair_name|]. split; [apply pair_before|]. split; [exact F|]. split; [exact G|].
  clear. intros E. vm_compute in E. discriminate E.
Qed.

(** One would like files that belong together to do so afterwards, at least when the run fails and says so.  They need
    not: the public key is replaced before the private file is opened.  If that cannot be written (it is read-only,
    say), the old private key stays beside the new public key, whose private key is nowhere: what is encrypted for it
    is lost. *)
Theorem C92_failures_leave_complete_pairs_refuted : exists entry_of lib sha512 files args occs free tin tout terr w status w' a d n n',
  lib_ok lib /\ wf_fs (w_fs w) /\ w_past w = [] /\ means 0 args occs free /\ asks_for_keys occs /\ unambiguous_keys entry_of (w_fs w) free /\
  main entry_of lib sha512 files args tin tout terr w status w' /\ status = 1 /\
  In a free /\ a <> lit "-" /\ is_file (components a) d n /\ public_name n n' /\
  complete_pair entry_of lib sha512 (w_fs w) (d ++ [Normal n']) (components a) /\ ~ complete_pair entry_of lib sha512 (w_fs w') (d ++ [Normal n']) (components a) /\
  exists public private t, texts_of_a_pair lib sha512 public private /\ entry_of (d ++ [Normal n']) = Some t /\ plain_file (w_fs w') t (utf8 public) /\
    forall u, plain_file (w_fs w') u (utf8 private) -> False.
Proof.
  destruct pair_means as (occs & M & As). destruct pair_fails as (w' & H & F & G & O).
  exists (case_names true false), toy_lib, case_digest, case_secrets, pair_command, occs, [lit "me"], false, false, false, pair_start, 1, w', (lit "me"), [], (lit "me"), (lit "me.pub").
  split; [exact toy_lib_ok|]. split; [exact pair_wf|]. split; [reflexivity|]. split; [exact M|]. split; [exact As|]. split; [apply pair_unambiguous|]. split; [exact H|]. split; [reflexivity|].
  split; [left; reflexivity|]. split; [intros E; vm_compute in E; discriminate E|]. split; [reflexivity|]. split; [exact pair_name|]. split; [apply pair_before|].
  split; [apply (pair_torn (case_names true false)); [reflexivity|exact F|exact G]|].
  exists case_public, case_private, (num "me.pub"). split; [exists toy_cs, []; split; [reflexivity|exact (proj1 case_key_texts)]|]. split; [reflexivity|]. split; [exact F|].
  intros u X. destruct (O u (ex_intro _ _ X)) as [->| ->].
  - pose proof (plain_unique _ _ _ _ F X) as E. exact (proj2 case_key_texts E).
  - pose proof (plain_unique _ _ _ _ G X) as E. clear - E. vm_compute in E. discriminate E.
Qed.
Print Assumptions C92_failures_leave_complete_pairs_refuted.

(** Neither is force needed for this, nor a fault of the operating system: where the private file exists and the public
    one does not, a public key is written whose private key is nowhere, before the private file is found to exist. *)
Theorem C92_public_keys_have_private_keys_refuted : exists entry_of lib sha512 files args occs free tin tout terr w status w' a d n n' public private t,
  lib_ok lib /\ wf_fs (w_fs w) /\ w_past w = [] /\ faulty entry_of = false /\ means 0 args occs free /\ asks_for_keys occs /\ ~ given OForce occs /\ unambiguous_keys entry_of (w_fs w) free /\
  main entry_of lib sha512 files args tin tout terr w status w' /\ status = 1 /\
  In a free /\ a <> lit "-" /\ is_file (components a) d n /\ public_name n n' /\
  texts_of_a_pair lib sha512 public private /\ entry_of (d ++ [Normal n']) = Some t /\ f_entries (w_fs w) t = None /\ plain_file (w_fs w') t (utf8 public) /\
  (forall u, plain_file (w_fs w') u (utf8 private) -> False).
Proof.
  destruct lone_means as (occs & M & As). destruct lone_fails as (w' & H & F & G & O).
  exists (case_names false false), toy_lib, case_digest, case_secrets, case_keygen, occs, [lit "me"], false, false, false, lone_start, 1, w', (lit "me"), [], (lit "me"), (lit "me.pub"), case_public, case_private, (num "me.pub").
  split; [exact toy_lib_ok|]. split; [exact lone_wf|]. split; [reflexivity|]. split; [reflexivity|]. split; [exact M|]. split; [exact As|].
  split. { clear - M. destruct (parse_options case_keygen) as [m| |] eqn:P; try discriminate P. pose proof (CmdProofs.means_is _ _ _ _ M P) as ->. vm_compute in P. injection P as <-. intros (x & [<-|[]] & E). discriminate E. }
  split; [apply lone_unambiguous|]. split; [exact H|]. split; [reflexivity|].
  split; [left; reflexivity|]. split; [intros E; vm_compute in E; discriminate E|]. split; [reflexivity|]. split; [exact pair_name|].
  split; [exists toy_cs, []; split; [reflexivity|exact (proj1 case_key_texts)]|]. split; [reflexivity|]. split; [reflexivity|]. split; [exact F|].
  intros u X. destruct (O u (ex_intro _ _ X)) as [->| ->].
  - pose proof (plain_unique _ _ _ _ F X) as E. exact (proj2 case_key_texts E).
  - pose proof (plain_unique _ _ _ _ G X) as E. clear - E. vm_compute in E. discriminate E.
Qed.
Print Assumptions C92_public_keys_have_private_keys_refuted.

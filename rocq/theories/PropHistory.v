(** C87: no history of commands without force loses data.

    Vocabulary (HistorySpec): [sound_fs] a consistent file system, [history] the states that any number of runs without
    force, each ended or stopped at any moment, lead to, with [others] the changes by other programs in between;
    [descends] the contents got by encrypting and decrypting.  [plain_file], [intact], [asked] are in FsSpec. *)
From Coq.Strings Require Import Byte String.
From Coq Require Import List NArith ZArith Bool PeanoNat Lia.
From Verif Require Import Base BaseFacts Shamir Errors Io HeaderIoSpec StreamSpec Text Util CliErrors Getopts Crypto HeaderCrypto CredSpec FileCrypto KeyFiles Ui UiSpec Paths Cli Fs Commands FsSpec
  FsProofs FsProofs2 FsProofs10 ToyCrypto FsCases FsCases2 PropFs HistorySpec HistoryProofs.
Import ListNotations.
Local Open Scope N_scope.

(** Whatever commands are given without force, in whatever order, and however they are interrupted: for every ordinary
    file there is at every moment an ordinary file with its content, or with what was got from it by encrypting and
    decrypting. *)
Theorem C87_no_history_loses_data : forall lib sha512 (others : fs -> fs -> Prop) f g, lib_ok lib ->
  (forall f g, others f g -> sound_fs f -> sound_fs g /\ forall s b, plain_file f s b -> exists t, plain_file g t b) ->
  sound_fs f -> history lib sha512 others f g ->
  sound_fs g /\ forall s b, plain_file f s b -> exists t c, plain_file g t c /\ descends lib b c.
Proof.
  intros lib sha512 others f g Hl Ho S H. split.
  - eapply history_sound; [exact Hl|intros f0 g0 O S0; apply (Ho _ _ O S0)|exact H|exact S].
  - eapply history_left; [exact Hl|intros f0 g0 O S0; apply (Ho _ _ O S0)|intros f0 g0 O S0; apply (Ho _ _ O S0)|exact H|exact S].
Qed.
Print Assumptions C87_no_history_loses_data.

(** What is no ordinary file with one name, so a link, a directory, a special file or a file with several names, stays
    where and as it is. *)
Theorem C87_other_entries_stay : forall lib sha512 (others : fs -> fs -> Prop) f g s, lib_ok lib ->
  (forall f g, others f g -> sound_fs f -> sound_fs g /\ forall s, f_entries f s <> None -> (forall b, ~ plain_file f s b) -> intact f g s) ->
  sound_fs f -> history lib sha512 others f g -> f_entries f s <> None -> (forall b, ~ plain_file f s b) -> intact f g s.
Proof.
  intros lib sha512 others f g s Hl Ho S H Ns Np.
  assert (Hs : forall f g, others f g -> sound_fs f -> sound_fs g) by (intros f0 g0 O S0; apply (Ho _ _ O S0)).
  induction H as [|f1 e files args ti to te w status w' g H IH E P Nf Hm Ig|f1 g H IH O]; [split; auto|..];
    pose proof (history_sound lib Hl sha512 others Hs _ _ H S) as S1; pose proof (intact_entry _ _ _ IH Ns) as N1; pose proof (intact_special _ _ _ IH Np) as Np1.
  - subst f1. eapply intact_trans; [exact IH|].
    destruct (C28_command_lines _ _ _ _ _ _ _ _ _ _ _ Hl (sound_wf _ S1) P Nf Hm g s Ig N1) as [K|(_ & _ & _ & _ & _ & _ & _ & b & _ & _ & _ & _ & _ & _ & Pb & _)]; [exact K|destruct (Np1 b Pb)].
  - eapply intact_trans; [exact IH|]. apply (proj2 (Ho _ _ O S1)); assumption.
Qed.
Print Assumptions C87_other_entries_stay.

(** rypt --password-file pw --discard-inputs notes: then notes is gone, and notes.rypt is what is left of it; the link stays. *)
Example C87_case : lib_ok toy_lib /\ sound_fs case_fs /\ plain_file case_fs (num "notes") case_data /\ f_entries case_fs (num "link") <> None /\
  (forall b, ~ plain_file case_fs (num "link") b) /\
  exists g, history toy_lib case_digest (fun f g => g = f) case_fs g /\ f_entries g (num "notes") = None.
Proof.
  split; [exact toy_lib_ok|]. split; [exact case_sound|]. split; [exact case_plain|]. split; [discriminate|]. split; [intros b (i & X & _); discriminate X|].
  destruct case_program as (w' & H & _ & D). exists (w_fs w'). split; [|exact D].
  eapply (h_run _ _ _ _ case_fs _ _ _ _ _ _ case_start); [apply h_start|reflexivity|reflexivity|exact case_not_forced|exact H|left; reflexivity].
Qed.

(** Specification of what is left after a loss of power (C72).

    Nothing in /repo waits for data to reach the disk (no [sync_all], [sync_data]), so the operating system may have
    written the changes of a run in any order, or not at all. *)
From Coq.Strings Require Import Byte String.
From Coq Require Import List NArith ZArith Bool.
From Verif Require Import Base Fs FsSpec.
Import ListNotations.
Local Open Scope N_scope.

(** [f] may be found after a loss of power in a run that started with [f0] and went through the states [ms]: each
    directory entry is as it was at some moment, and so is each file that did not change; files that did change may
    have any content, or be gone. *)
Definition left_after_loss (f0 : fs) (ms : list fs) (f : fs) : Prop :=
  (forall s, exists g, In g (f0 :: ms) /\ f_entries f s = f_entries g s) /\
  (forall i, (exists g, In g (f0 :: ms) /\ f_nodes f i = f_nodes g i) \/
             (exists g1 g2, In g1 (f0 :: ms) /\ In g2 (f0 :: ms) /\ f_nodes g1 i <> f_nodes g2 i)).

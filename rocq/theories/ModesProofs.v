(** Proofs about permissions (C84). *)
From Coq Require Import List NArith Bool.
From Verif Require Import Base CliErrors Text Ui Cli Crypto HeaderCrypto Fs Commands Program Calls CallSpec CallProofs2 CallProofs5 Modes.
Import ListNotations.
Local Open Scope N_scope.

Section WithMask.
Variable umask : N.
Variable entry_of : names.

Lemma modes_exist w h w' : shared entry_of nothing w h w' -> forall m, exists m', mode_run umask entry_of w m h w' m'.
Proof.
  intros H. induction H as [w|e h w w1 w' T H IH|f h w w' [] H IH]; intros m; [exists m; constructor|].
  destruct (IH (mode_step umask (w_fs w) e m)) as (m' & K). exists m'. econstructor; eassumption.
Qed.
Lemma mode_shared w m h w' m' : mode_run umask entry_of w m h w' m' -> shared entry_of nothing w h w'.
Proof. intros H. induction H; [constructor|econstructor; eassumption]. Qed.

(** Permissions only change when an unused inode is taken. *)
Lemma step_mode e w w1 m i : takes entry_of e w w1 ->
  mode_step umask (w_fs w) e m i = m i \/ (unused (w_fs w) i /\ mode_step umask (w_fs w) e m i = created_mode umask).
Proof.
  intros T. destruct e as [p r|p r|p r|p r|p r|src|d rd wr src out r|wr t out r|pair|out r|new]; cbn [mode_step]; try (left; reflexivity).
  - cbn [takes] in T. destruct T as [(-> & _)|(s0 & j & E & N & U & -> & _)]; [left; reflexivity|].
    rewrite (proj1 U). destruct (N.eqb_spec i j) as [->|]; [right; split; [exact U|reflexivity]|left; reflexivity].
  - cbn [takes] in T. destruct T as [(-> & _)|(s0 & t & j & E & F & -> & [(N & U & _)|(n & A & B & _)])]; [left; reflexivity| |rewrite B; left; reflexivity].
    rewrite (proj1 U). destruct (N.eqb_spec i j) as [->|]; [right; split; [exact U|reflexivity]|left; reflexivity].
Qed.
(** An entry appears by a call that gives its file the usual permissions. *)
Lemma step_appears e w w1 m s i : takes entry_of e w w1 -> f_entries (w_fs w) s <> Some (EFile i) -> f_entries (w_fs w1) s = Some (EFile i) ->
  f_entries (w_fs w) s = None /\ mode_step umask (w_fs w) e m i = created_mode umask.
Proof.
  intros T N E. destruct (step_entries entry_of e w w1 s T) as [K|[(q & j & -> & _ & K & A)|[(q & q' & j & -> & _ & _ & K & A)|(p & -> & _ & _ & K)]]]; [congruence| | |congruence].
  - split; [exact K|]. assert (j = i) as -> by (destruct A as [? A]; congruence). cbn [takes] in T. destruct T as [(X & _)|(s0 & j & _ & _ & U & [= <-] & _)]; [discriminate X|].
    cbn [mode_step]. rewrite (proj1 U), N.eqb_refl. reflexivity.
  - split; [exact K|]. assert (j = i) as -> by (destruct A as [? A]; congruence).
    cbn [takes] in T. destruct T as [(X & _)|(s0 & t & j & _ & F & [= <-] & [(N' & U & _)|(n & A' & B & W)])]; [discriminate X| |].
    + cbn [mode_step]. rewrite (proj1 U), N.eqb_refl. reflexivity.
    + exfalso. apply N. rewrite <- E, W. destruct (n_regular n); [|reflexivity]. cbn [set_fs w_fs]. unfold set_content. rewrite B. reflexivity.
Qed.

(** The entry [s] is now a file that was there at the start and has its permissions; or it was removed or was not there. *)
Definition course (w : world) (m : modes) (h : list syscall) (w' : world) (m' : modes) (s i : N) : Prop :=
  (f_entries (w_fs w) s = Some (EFile i) /\ m' i = m i) \/
  ((f_entries (w_fs w) s = None \/ exists p, entry_of p = Some s /\ In (SRemove p (Ok tt)) h) /\ m' i = created_mode umask).
Lemma run_course w m h w' m' : mode_run umask entry_of w m h w' m' -> forall s i, f_entries (w_fs w') s = Some (EFile i) -> course w m h w' m' s i.
Proof.
  intros H. induction H as [w m|e h w m w1 w' m' T H IH]; intros s i E; [left; auto|].
  destruct (IH s i E) as [[A B]|[A B]].
  - destruct (step_mode e w w1 m i T) as [K|[K1 K2]].
    + destruct (f_entries (w_fs w) s) as [x|] eqn:Es.
      * destruct (step_entries entry_of e w w1 s T) as [X|[(q & j & _ & _ & X & _)|[(q & q' & j & _ & _ & _ & X & _)|(p & _ & _ & _ & X)]]]; [|congruence..].
        left. rewrite Es. split; [congruence|]. congruence.
      * right. split; [left; exact Es|]. rewrite B. apply (step_appears e w w1 m s i T); [rewrite Es; discriminate|exact A].
    + right. rewrite B. split; [|exact K2]. left.
      destruct (f_entries (w_fs w) s) as [x|] eqn:Es; [|reflexivity].
      destruct (step_entries entry_of e w w1 s T) as [X|[(q & j & _ & _ & X & _)|[(q & q' & j & _ & _ & _ & X & _)|(p & _ & _ & _ & X)]]]; [|congruence..].
      exfalso. apply (proj2 K1 s). congruence.
  - right. split; [|exact B]. destruct A as [A|(p & Ep & I)]; [|right; exists p; split; [exact Ep|right; exact I]].
    destruct (f_entries (w_fs w) s) as [x|] eqn:Es; [|left; reflexivity].
    destruct (step_entries entry_of e w w1 s T) as [X|[(q & j & _ & _ & X & _)|[(q & q' & j & _ & _ & _ & X & _)|(p & -> & Ep & _ & _)]]]; [congruence..|].
    right. exists p. split; [exact Ep|left; reflexivity].
Qed.
(** What is not removed stays. *)
Lemma run_stays w m h w' m' : mode_run umask entry_of w m h w' m' -> forall s i, f_entries (w_fs w) s = Some (EFile i) ->
  (forall p, entry_of p = Some s -> ~ In (SRemove p (Ok tt)) h) -> f_entries (w_fs w') s = Some (EFile i) /\ m' i = m i.
Proof.
  intros H. induction H as [w m|e h w m w1 w' m' T H IH]; intros s i E N; [auto|].
  assert (E1 : f_entries (w_fs w1) s = Some (EFile i)).
  { destruct (step_entries entry_of e w w1 s T) as [X|[(q & j & _ & _ & X & _)|[(q & q' & j & _ & _ & _ & X & _)|(p & -> & Ep & _ & _)]]]; [congruence..|].
    destruct (N p Ep). left. reflexivity. }
  destruct (IH s i E1) as [A B]; [intros p Ep I; apply (N p Ep); right; exact I|]. split; [exact A|].
  destruct (step_mode e w w1 m i T) as [K|[K _]]; [congruence|]. destruct (proj2 K s E).
Qed.
End WithMask.

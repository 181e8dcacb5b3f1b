(** Proofs about runs in shared file systems (C67). *)
From Coq.Strings Require Import Byte String.
From Coq Require Import List NArith ZArith Bool PeanoNat Lia.
From Verif Require Import Base BaseFacts Shamir Errors Io HeaderIoSpec StreamSpec Text Util CliErrors Crypto HeaderCrypto FileCrypto CredSpec KeyFiles Ui UiSpec Paths Getopts CliCreds Cli Fs Commands FsSpec ConvProofs FsProofs FsProofs3 FsProofs4 Program Calls CallSpec CallProofs.
Import ListNotations.
Local Open Scope N_scope.

(** Sequences of calls *)
Lemma shared_app entry_of others h1 h2 : forall w w', shared entry_of others w (h1 ++ h2) w' ->
  exists w1, shared entry_of others w h1 w1 /\ shared entry_of others w1 h2 w'.
Proof.
  intros w w' H. remember (h1 ++ h2) as h eqn:E. revert h1 E.
  induction H as [w|e h w w1 w' T H IH|f h w w' O H IH]; intros h1 E.
  - symmetry in E. apply app_eq_nil in E as [-> ->]. exists w. split; constructor.
  - destruct h1 as [|x h1]; cbn in E.
    + subst h2. exists w. split; [constructor|]. econstructor; eassumption.
    + injection E as <- ->. destruct (IH _ eq_refl) as (wm & A & B). exists wm. split; [econstructor; eassumption|exact B].
  - destruct (IH _ E) as (wm & A & B). exists wm. split; [eapply sh_other; eassumption|exact B].
Qed.

(** ** Writing *)
Lemma write_out_fs k out w n : f_nodes (w_fs w) k = Some n -> n_regular n = true ->
  f_entries (w_fs (write_out (WriteNode k) out w)) = f_entries (w_fs w) /\
  forall j, f_nodes (w_fs (write_out (WriteNode k) out w)) j = if j =? k then Some (mkNode true (n_content n ++ out) (n_links n)) else f_nodes (w_fs w) j.
Proof.
  intros En Rn. cbn [write_out]. rewrite En, Rn.
  assert (K : forall m, let w' := fold_left (fun w x => set_fs w (set_content (w_fs w) k (n_content n ++ firstn x out))) (seq 1 m) w in
    f_entries (w_fs w') = f_entries (w_fs w) /\ forall j, f_nodes (w_fs w') j = if j =? k then Some (mkNode true (n_content n ++ firstn m out) (n_links n)) else f_nodes (w_fs w) j).
  { induction m as [|m IH]; cbv zeta.
    - cbn. split; [reflexivity|]. intros j. destruct (N.eqb_spec j k) as [->|]; [|reflexivity]. rewrite app_nil_r, En. destruct n as [r c l]. cbn in *. congruence.
    - rewrite seq_S, fold_left_app. cbn [fold_left]. cbv zeta in IH. destruct IH as [A B]. set (w1 := fold_left _ (seq 1 m) w) in *. cbn [set_fs w_fs].
      assert (N1 : f_nodes (w_fs w1) k = Some (mkNode true (n_content n ++ firstn m out) (n_links n))) by (rewrite B, N.eqb_refl; reflexivity).
      destruct (set_content_nodes (w_fs w1) k _ (n_content n ++ firstn (1 + m) out) N1) as [C D]. split; [rewrite C; exact A|].
      intros j. rewrite D. cbn [n_regular n_links]. destruct (N.eqb_spec j k) as [->|Nj]; [reflexivity|]. rewrite B. destruct (N.eqb_spec j k); [contradiction|reflexivity]. }
  destruct (K (length out)) as [A B]. cbv zeta in A, B. split; [exact A|]. intros j. rewrite B. rewrite firstn_all. reflexivity.
Qed.

(** ** A logic for shared file systems *)
Section Logic.
Variable entry_of : names.
Variable others : fs -> fs -> Prop.
Variable G : fs -> fs -> Prop.
Local Notation post A := (outcome cerr A -> fs -> Prop).
Implicit Type P : fs -> Prop.
Definition stable P : Prop := forall f g, others f g -> P f -> P g.
Definition wh {A} P (m : trace A) (Q : post A) : Prop := forall u r h u' w, P (w_fs w) -> m u r h u' ->
  (forall b e a w1 w2, h = b ++ e :: a -> shared entry_of others w b w1 -> takes entry_of e w1 w2 -> G (w_fs w1) (w_fs w2)) /\
  (forall x w', r = Some x -> shared entry_of others w h w' -> Q x (w_fs w')).

Lemma stable_nil P w w' : stable P -> P (w_fs w) -> shared entry_of others w [] w' -> P (w_fs w').
Proof.
  intros S Hp H. remember [] as h eqn:E. induction H as [w|e h w w1 w' T H IH|f h w w' O H IH]; [exact Hp|discriminate E|]. apply IH; [|exact E]. exact (S _ _ O Hp).
Qed.
Lemma stable_one P e w w' : stable P -> P (w_fs w) -> shared entry_of others w [e] w' ->
  exists w1 w2, P (w_fs w1) /\ takes entry_of e w1 w2 /\ shared entry_of others w2 [] w'.
Proof.
  intros S Hp H. remember [e] as h eqn:E. induction H as [w|e' h w w1 w' T H IH|f h w w' O H IH]; [discriminate E| |].
  - injection E as -> ->. exists w, w1. auto.
  - apply IH; [|exact E]. exact (S _ _ O Hp).
Qed.

Lemma w_lift {A} P (x : outcome cerr A) (Q : post A) : (forall f, P f -> Q x f) -> stable (Q x) -> wh P (t_lift x) Q.
Proof.
  intros H S u r h u' w Hp (-> & -> & ->). split; [intros b e a w1 w2 E; destruct (split_nil _ _ _ E)|]. intros y w' [= <-] Hs.
  eapply stable_nil; [exact S| |exact Hs]. auto.
Qed.
Lemma w_ret {A} P (x : A) (Q : post A) : (forall f, P f -> Q (Ok x) f) -> stable (Q (Ok x)) -> wh P (t_ret x) Q.
Proof. apply w_lift. Qed.
Lemma w_bind {A B} P (m : trace A) (R : post A) (f : A -> trace B) (Q : post B) :
  wh P m R -> (forall a, wh (R (Ok a)) (f a) Q) -> (forall e g, R (Err e) g -> Q (Err e) g) -> (forall g, R Panic g -> Q Panic g) -> wh P (t_bind m f) Q.
Proof.
  intros Hm Hf He Hpa u r h u' w Hp [(a & h1 & u1 & h2 & M & F & ->)|[(e & M & ->)|[(M & ->)|(M & ->)]]]; destruct (Hm _ _ _ _ _ Hp M) as [K1 K2].
  - split.
    + intros b e c w1 w2 E Hs T. destruct (split_app _ _ _ _ _ E) as [(a' & -> & _)|(b' & -> & ->)]; [eapply K1; eauto|].
      apply shared_app in Hs as (wm & S1 & S2). destruct (Hf a _ _ _ _ _ (K2 _ _ eq_refl S1) F) as [L1 _]. eapply L1; eauto.
    + intros x w' E Hs. apply shared_app in Hs as (wm & S1 & S2). destruct (Hf a _ _ _ _ _ (K2 _ _ eq_refl S1) F) as [_ L2]. eapply L2; eauto.
  - split; [exact K1|]. intros x w' [= <-] Hs. apply He. eapply K2; eauto.
  - split; [exact K1|]. intros x w' [= <-] Hs. apply Hpa. eapply K2; eauto.
  - split; [exact K1|]. discriminate.
Qed.
Lemma w_try {A} P (m : trace A) (R : post A) (Q : post (outcome cerr A)) :
  wh P m R -> (forall x g, x <> Panic -> R x g -> Q (Ok x) g) -> (forall g, R Panic g -> Q Panic g) -> wh P (t_try m) Q.
Proof.
  intros Hm Hq Hpa u r h u' w Hp [(x & Nx & M & ->)|[(M & ->)|(M & ->)]]; destruct (Hm _ _ _ _ _ Hp M) as [K1 K2]; (split; [exact K1|]).
  - intros y w' [= <-] Hs. apply Hq; [exact Nx|]. eapply K2; eauto.
  - intros y w' [= <-] Hs. apply Hpa. eapply K2; eauto.
  - discriminate.
Qed.
Lemma w_call {A} P (c : outcome cerr A -> syscall) (Q : post A) : stable P -> (forall x, stable (Q x)) ->
  (forall x w w', P (w_fs w) -> takes entry_of (c x) w w' -> G (w_fs w) (w_fs w') /\ (x <> Panic -> Q x (w_fs w'))) -> wh P (t_call c) Q.
Proof.
  intros SP SQ H u r h u' w Hp (-> & [(x & Nx & -> & D)|(-> & ->)]).
  - split.
    + intros b e a w1 w2 E Hs T. apply split_one in E as (-> & -> & _). pose proof (stable_nil _ _ _ SP Hp Hs) as Hp1. apply (H x w1 w2 Hp1 T).
    + intros y w' Ey Hs. destruct D as [D|D]; rewrite D in Ey; [|discriminate Ey]. injection Ey as <-.
      destruct (stable_one _ _ _ _ SP Hp Hs) as (w1 & w2 & Hp1 & T & Hs2). eapply stable_nil; [apply SQ| |exact Hs2]. apply (H x w1 w2 Hp1 T). exact Nx.
  - split; [intros b e a w1 w2 E; destruct (split_nil _ _ _ E)|discriminate].
Qed.
Lemma w_term {A} P (m : act A) (Q : post A) : stable P -> (forall f, G f f) -> (forall f r, P f -> Q r f) -> wh P (t_ui m) Q.
Proof.
  intros SP Gr H u r h u' w Hp (-> & D).
  assert (K : exists new, h = [SUi new]) by (destruct D as [(-> & _)|(new & _ & -> & _)]; eauto). destruct K as [new ->].
  assert (T' : forall w1 w2, takes entry_of (SUi new) w1 w2 -> w_fs w2 = w_fs w1) by (intros w1 w2 (x & -> & _); reflexivity). split.
  - intros b e a w1 w2 E Hs T. apply split_one in E as (-> & -> & _). rewrite (T' _ _ T). apply Gr.
  - intros x w' Ex Hs. destruct (stable_one _ _ _ _ SP Hp Hs) as (w1 & w2 & Hp1 & T & Hs2). apply H. eapply stable_nil; [exact SP| |exact Hs2]. rewrite (T' _ _ T). exact Hp1.
Qed.
Lemma w_pre {A} P P' (m : trace A) (Q : post A) : wh P' m Q -> (forall f, P f -> P' f) -> wh P m Q.
Proof. intros H E u r h u' w Hp M. exact (H u r h u' w (E _ Hp) M). Qed.
Lemma w_post {A} P (m : trace A) (Q Q' : post A) : wh P m Q' -> (forall x f, Q' x f -> Q x f) -> wh P m Q.
Proof. intros H E u r h u' w Hp M. destruct (H u r h u' w Hp M) as [K1 K2]. split; [exact K1|]. eauto. Qed.
Lemma w_exists {A} {X} (P : X -> fs -> Prop) (m : trace A) (Q : post A) : (forall x, wh (P x) m Q) -> wh (fun f => exists x, P x f) m Q.
Proof. intros H u r h u' w [x Hp] M. exact (H x u r h u' w Hp M). Qed.
Lemma w_and {A} (C : Prop) P (m : trace A) (Q : post A) : (C -> wh P m Q) -> wh (fun f => C /\ P f) m Q.
Proof. intros H u r h u' w [c Hp] M. exact (H c u r h u' w Hp M). Qed.
End Logic.

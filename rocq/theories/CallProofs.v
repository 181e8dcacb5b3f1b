(** Proofs about the calls of the program (C66). *)
From Coq.Strings Require Import Byte String.
From Coq Require Import List NArith ZArith Bool Lia.
From Verif Require Import Base BaseFacts Shamir Errors Io HeaderIoSpec StreamSpec Text Util CliErrors Crypto HeaderCrypto FileCrypto CredSpec KeyFiles Ui UiSpec Paths Getopts CliCreds Cli Fs Commands FsSpec ConvProofs FsProofs4 Program Calls CallSpec.
Import ListNotations.
Local Open Scope N_scope.

(** ** Lists *)
Lemma split_app {A} (h1 h2 b : list A) e a : h1 ++ h2 = b ++ e :: a ->
  (exists a', h1 = b ++ e :: a' /\ a = a' ++ h2) \/ (exists b', b = h1 ++ b' /\ h2 = b' ++ e :: a).
Proof.
  revert b. induction h1 as [|x h1 IH]; intros b H; [right; exists b; auto|]. destruct b as [|y b]; cbn in H.
  - injection H as -> <-. left. exists h1. auto.
  - injection H as -> H. destruct (IH _ H) as [(a' & -> & ->)|(b' & -> & ->)]; [left; exists a'; auto|right; exists b'; auto].
Qed.
Lemma split_one {A} (x : A) b e a : [x] = b ++ e :: a -> b = [] /\ e = x /\ a = [].
Proof. destruct b as [|y b]; cbn; [intros [= -> <-]; auto|]. intros [= _ H]. destruct b; discriminate H. Qed.
Lemma split_nil {A} (b : list A) e a : [] = b ++ e :: a -> False.
Proof. destruct b; discriminate. Qed.

(** ** A program logic for runs *)
Section Logic.
Variable J : list syscall -> syscall -> Prop.
Local Notation post A := (outcome cerr A -> list syscall -> Prop).
Implicit Type P : list syscall -> Prop.
Definition hoare {A} P (m : trace A) (Q : post A) : Prop :=
  forall pre u r h u', P pre -> m u r h u' ->
  (forall b e a, h = b ++ e :: a -> J (pre ++ b) e) /\ (forall x, r = Some x -> Q x (pre ++ h)).

Lemma h_lift {A} P (x : outcome cerr A) (Q : post A) : (forall pre, P pre -> Q x pre) -> hoare P (t_lift x) Q.
Proof.
  intros H pre u r h u' Hp (-> & -> & ->). split; [intros b e a E; destruct (split_nil _ _ _ E)|]. intros y [= <-]. rewrite app_nil_r. auto.
Qed.
Lemma h_ret {A} P (x : A) (Q : post A) : (forall pre, P pre -> Q (Ok x) pre) -> hoare P (t_ret x) Q.
Proof. apply h_lift. Qed.
Lemma h_bind {A B} P (m : trace A) (R : post A) (f : A -> trace B) (Q : post B) :
  hoare P m R -> (forall a, hoare (R (Ok a)) (f a) Q) -> (forall e h, R (Err e) h -> Q (Err e) h) -> (forall h, R Panic h -> Q Panic h) ->
  hoare P (t_bind m f) Q.
Proof.
  intros Hm Hf He Hpa pre u r h u' Hp [(a & h1 & u1 & h2 & M & F & ->)|[(e & M & ->)|[(M & ->)|(M & ->)]]]; destruct (Hm _ _ _ _ _ Hp M) as [K1 K2].
  - destruct (Hf a _ _ _ _ _ (K2 _ eq_refl) F) as [L1 L2]. split.
    + intros b e c E. destruct (split_app _ _ _ _ _ E) as [(a' & -> & _)|(b' & -> & ->)]; [eapply K1; reflexivity|]. rewrite app_assoc. eapply L1. reflexivity.
    + intros x E. rewrite app_assoc. apply L2, E.
  - split; [exact K1|]. intros x [= <-]. apply He, K2. reflexivity.
  - split; [exact K1|]. intros x [= <-]. apply Hpa, K2. reflexivity.
  - split; [exact K1|]. discriminate.
Qed.
Lemma h_try {A} P (m : trace A) (R : post A) (Q : post (outcome cerr A)) :
  hoare P m R -> (forall x h, x <> Panic -> R x h -> Q (Ok x) h) -> (forall h, R Panic h -> Q Panic h) -> hoare P (t_try m) Q.
Proof.
  intros Hm Hq Hpa pre u r h u' Hp [(x & Nx & M & ->)|[(M & ->)|(M & ->)]]; destruct (Hm _ _ _ _ _ Hp M) as [K1 K2]; (split; [exact K1|]).
  - intros y [= <-]. apply Hq; [exact Nx|]. apply K2. reflexivity.
  - intros y [= <-]. apply Hpa, K2. reflexivity.
  - discriminate.
Qed.
Lemma h_call {A} P (c : outcome cerr A -> syscall) (Q : post A) :
  (forall pre x, P pre -> J pre (c x)) -> (forall pre x, P pre -> x <> Panic -> Q x (pre ++ [c x])) -> hoare P (t_call c) Q.
Proof.
  intros Hj Hq pre u r h u' Hp (-> & [(x & Nx & -> & D)|(-> & ->)]).
  - split.
    + intros b e a E. apply split_one in E as (-> & -> & _). rewrite app_nil_r. apply Hj, Hp.
    + intros y Ey. destruct D as [D|D]; rewrite D in Ey; [|discriminate Ey]. injection Ey as <-. auto.
  - split; [intros b e a E; destruct (split_nil _ _ _ E)|discriminate].
Qed.
Lemma h_ui {A} P (m : act A) (Q : post A) :
  (forall pre new, P pre -> J pre (SUi new)) -> (forall pre u, P pre -> Q (fst (m u)) (pre ++ [SUi (new_events u (snd (m u)))])) -> hoare P (t_ui m) Q.
Proof.
  intros Hj Hq pre u r h u' Hp (-> & [(-> & ->)|(new & _ & -> & ->)]); (split; [intros b e a E; apply split_one in E as (-> & -> & _); rewrite app_nil_r; apply Hj, Hp|]).
  - intros x [= <-]. apply Hq, Hp.
  - discriminate.
Qed.
Lemma h_pre {A} (P P' : list syscall -> Prop) (m : trace A) (Q : post A) : hoare P' m Q -> (forall h, P h -> P' h) -> hoare P m Q.
Proof. intros H E pre u r h u' Hp M. exact (H pre u r h u' (E _ Hp) M). Qed.
Lemma h_post {A} P (m : trace A) (Q Q' : post A) : hoare P m Q' -> (forall x h, Q' x h -> Q x h) -> hoare P m Q.
Proof. intros H E pre u r h u' Hp M. destruct (H pre u r h u' Hp M) as [K1 K2]. split; [exact K1|]. intros x Ex. apply E, K2, Ex. Qed.
Lemma h_exists {A} {X} (P : X -> list syscall -> Prop) (m : trace A) (Q : post A) : (forall x, hoare (P x) m Q) -> hoare (fun h => exists x, P x h) m Q.
Proof. intros H pre u r h u' [x Hp] M. exact (H x pre u r h u' Hp M). Qed.
Lemma h_and {A} (C : Prop) (P : list syscall -> Prop) (m : trace A) (Q : post A) : (C -> hoare P m Q) -> hoare (fun h => C /\ P h) m Q.
Proof. intros H pre u r h u' [c Hp] M. exact (H c pre u r h u' Hp M). Qed.
End Logic.

(** ** Commands that convert *)
Section Crypt.
Variable lib : crypto_lib.
Hypothesis Hlib : lib_ok lib.
Variables (all : list io_stream) (policy : cleanup_policy) (force : bool) (d : direction_opts).

(** Everything removed so far was a failed output. *)
Definition clean (h : list syscall) : Prop := forall b p x a, h = b ++ SRemove p x :: a -> has_failed all force d p b.
Definition converted0 (p : path) (h : list syscall) : Prop :=
  exists st o rd wr src out h0 h1, In st all /\ s_input st = IFile p /\ ready_to_convert force st o rd wr h0 /\
    ends_in_error src = false /\ is_conversion lib d (flat src) out /\ h = h0 ++ SConvert d rd wr src out (Some (Ok tt)) :: h1.
Definition has_opened (q : path) (h : list syscall) : Prop :=
  exists st rd h0 h1, In st all /\ s_output st = Ok (OFile q) /\ opens force (s_input st) rd h1 /\ h = h0 ++ h1.
Definition justified (b : list syscall) (e : syscall) : Prop :=
  match e with
  | SOpenRead p _ | SStat p _ => clean b /\ exists st, In st all /\ (s_input st = IFile p \/ s_input st = IFileStream p)
  | STakeStdin _ => clean b /\ exists st, In st all /\ s_input st = IStdin
  | SCreateNew q _ => clean b /\ force = false /\ has_opened q b
  | SCreateOrTruncate q _ => clean b /\ force = true /\ has_opened q b
  | SConvert d' rd wr src out x => clean b /\ d' = d /\ (exists st o, In st all /\ ready_to_convert force st o rd wr b) /\
      (x = Some (Ok tt) -> ends_in_error src = false /\ is_conversion lib d (flat src) out)
  | SRemove p _ => has_failed all force d p b \/ (converted0 p b /\ removal_requested policy b)
  | SUi _ => True
  | _ => False
  end.
Local Notation ho := (hoare justified).
Implicit Type P : list syscall -> Prop.

Lemma clean_other h e : clean h -> (forall p x, e <> SRemove p x) -> clean (h ++ [e]).
Proof.
  intros C N b p x a E. destruct (split_app _ _ _ _ _ E) as [(a' & -> & _)|(b' & -> & E')]; [eapply C; reflexivity|].
  apply split_one in E' as (_ & E' & _). destruct (N p x). auto.
Qed.
Lemma clean_failed h p x : clean h -> has_failed all force d p h -> clean (h ++ [SRemove p x]).
Proof.
  intros C F b p' x' a E. destruct (split_app _ _ _ _ _ E) as [(a' & -> & _)|(b' & -> & E')]; [eapply C; reflexivity|].
  apply split_one in E' as (-> & E' & _). injection E' as -> ->. rewrite app_nil_r. exact F.
Qed.
Lemma converted0_more p h h' : converted0 p h -> converted0 p (h ++ h').
Proof. intros (st & o & rd & wr & src & out & h0 & h1 & A & B & C & D & E & ->). exists st, o, rd, wr, src, out, h0, (h1 ++ h'). rewrite <- app_assoc. auto 10. Qed.

(** Before the removal of originals everything is clean, and results say something. *)
Definition good {A} (S : A -> list syscall -> Prop) (r : outcome cerr A) (h : list syscall) : Prop := clean h /\ forall a, r = Ok a -> S a h.
Lemma g_ret {A} P (a : A) S : (forall h, P h -> clean h /\ S a h) -> ho P (t_ret a) (good S).
Proof. intros H. apply h_ret. intros h Hp. destruct (H h Hp) as [C K]. split; [exact C|]. intros a' [= <-]. exact K. Qed.
Lemma g_lift {A} P (x : outcome cerr A) (S : A -> list syscall -> Prop) : (forall h, P h -> clean h /\ forall a, x = Ok a -> S a h) -> ho P (t_lift x) (good S).
Proof. intros H. apply h_lift. exact H. Qed.
Lemma g_bind {A B} P (m : trace A) S (f : A -> trace B) T : ho P m (good S) -> (forall a, ho (fun h => clean h /\ S a h) (f a) (good T)) -> ho P (t_bind m f) (good T).
Proof.
  intros Hm Hf. eapply h_bind; [exact Hm|..].
  - intros a. eapply h_pre; [apply Hf|]. intros h [C K]. auto.
  - intros e h [C _]. split; [exact C|discriminate].
  - intros h [C _]. split; [exact C|discriminate].
Qed.
Lemma g_try {A} P (m : trace A) (Q : outcome cerr A -> list syscall -> Prop) (S : outcome cerr A -> list syscall -> Prop) : ho P m Q -> (forall x h, Q x h -> clean h /\ (x <> Panic -> S x h)) -> ho P (t_try m) (good S).
Proof.
  intros Hm Hq. eapply h_try; [exact Hm|..].
  - intros x h Nx K. destruct (Hq x h K) as [C K']. split; [exact C|]. intros y [= <-]. auto.
  - intros h K. split; [apply (Hq _ _ K)|discriminate].
Qed.
Lemma g_ui {A} P (m : act A) (S : A -> list syscall -> Prop) : (forall h, P h -> clean h) -> (forall h u a, P h -> fst (m u) = Ok a -> S a (h ++ [SUi (new_events u (snd (m u)))])) -> ho P (t_ui m) (good S).
Proof. intros Hc H. apply h_ui; [intros; exact I|]. intros pre u Hp. split; [apply clean_other; [auto|discriminate]|]. eauto. Qed.
Lemma g_call {A} P (c : outcome cerr A -> syscall) (S : A -> list syscall -> Prop) : (forall p x y, c y <> SRemove p x) -> (forall h, P h -> clean h) -> (forall h x, P h -> justified h (c x)) ->
  (forall h a, P h -> S a (h ++ [c (Ok a)])) -> ho P (t_call c) (good S).
Proof.
  intros N Hc Hj H. apply h_call; [exact Hj|]. intros h x Hp Nx. split; [apply clean_other; auto|]. intros a ->. auto.
Qed.
Lemma g_ensure {A} P b e (k : unit -> trace A) S : (forall h, P h -> clean h) -> (b = true -> ho P (k tt) (good S)) -> ho P (t_bind (t_lift (ensure b e)) k) (good S).
Proof.
  intros Hc Hk. eapply g_bind with (S := fun _ h => b = true /\ P h).
  - apply g_lift. intros h Hp. split; [auto|]. intros a E. destruct b; [auto|discriminate E].
  - intros []. eapply h_pre; [apply (h_and _ (b = true) P), Hk|]. intros h [_ K]. exact K.
Qed.

(** Opening leaves a trace. *)
Lemma ho_open_file p : (exists st, In st all /\ (s_input st = IFile p \/ s_input st = IFileStream p)) ->
  ho clean (open_file_p trace (any_os lib) p)
    (good (fun '(rd, md) h => m_type md <> FDirectory /\ exists h0, h = h0 ++ [SOpenRead p (Ok rd); SStat p (Ok md)])).
Proof.
  intros Hst. unfold open_file_p. cbn [any_os p_bind p_open_read p_stat p_lift p_ret].
  eapply g_bind with (S := fun rd h => exists h0, h = h0 ++ [SOpenRead p (Ok rd)]).
  - apply g_call; [discriminate|auto|split; auto|]. intros h rd _. eauto.
  - intros rd. eapply g_bind with (S := fun md h => exists h0, h = h0 ++ [SOpenRead p (Ok rd); SStat p (Ok md)]).
    + apply g_call; [discriminate|tauto|intros h x [C _]; split; auto|]. intros h md [C [h0 ->]]. exists h0. rewrite <- app_assoc. reflexivity.
    + intros md. apply g_ensure; [tauto|]. intros E. apply g_ret. intros h [C K]. split; [exact C|]. split; [|exact K]. intros D. rewrite D in E. discriminate E.
Qed.
Lemma ho_open_input st : In st all ->
  ho clean (open_input_p trace (any_os lib) (s_input st) force) (good (fun rd h => exists h0 h1, opens force (s_input st) rd h1 /\ h = h0 ++ h1)).
Proof.
  intros Hst. unfold open_input_p. destruct (s_input st) as [p|p|] eqn:Ei; cbn [any_os p_bind p_lift p_ret p_stdin].
  - eapply g_bind; [apply ho_open_file; exists st; auto|]. intros [rd md].
    apply g_ensure; [tauto|]. intros E1. apply g_ensure; [tauto|]. intros E2. apply g_ensure; [tauto|]. intros E3. apply g_ret.
    intros h (C & D & h0 & ->). split; [exact C|]. eexists _, _. split; [|reflexivity].
    apply op_file; [exact D|]. intros F. rewrite F in *. cbn [orb] in E2, E3. apply N.eqb_eq in E2. split; [|exact E2]. destruct (m_type md); congruence.
  - eapply g_bind; [apply ho_open_file; exists st; auto|]. intros [rd md]. apply g_ret. intros h (C & D & h0 & ->). split; [exact C|]. eexists _, _. split; [|reflexivity]. apply op_stream, D.
  - intros pre u r h u' C H. unfold t_stdin in H. destruct (u_input u) as [s|]; destruct H as (-> & -> & H).
    + split.
      * intros b e a E. apply split_one in E as (-> & -> & _). rewrite app_nil_r. split; [exact C|]. eauto.
      * intros x Ex. split; [apply clean_other; [exact C|discriminate]|]. intros rd ->. destruct H as [H|H]; rewrite H in Ex; [|discriminate Ex]. injection Ex as <-.
        eexists _, _. split; [apply op_stdin|reflexivity].
    + split; [intros b e a E; destruct (split_nil _ _ _ E)|]. intros x Ex. rewrite app_nil_r. split; [exact C|]. intros rd ->. rewrite H in Ex. discriminate Ex.
Qed.
Lemma ho_open_output st o rd : In st all -> s_output st = Ok o ->
  ho (fun h => clean h /\ exists h0 h1, opens force (s_input st) rd h1 /\ h = h0 ++ h1) (open_output_p trace (any_os lib) o force)
     (good (fun wr h => ready_to_convert force st o rd wr h)).
Proof.
  intros Hst Eo. unfold open_output_p. destruct o as [q|].
  - assert (F : force = true \/ force = false) by (destruct force; auto). cbn [any_os p_create_or_truncate p_create_new].
    destruct F as [F|F]; [replace (if force then t_call (SCreateOrTruncate q) else t_call (SCreateNew q)) with (t_call (SCreateOrTruncate q)) by (rewrite F; reflexivity)
                         |replace (if force then t_call (SCreateOrTruncate q) else t_call (SCreateNew q)) with (t_call (SCreateNew q)) by (rewrite F; reflexivity)];
      apply g_call; try discriminate; try tauto.
    + intros h x (C & h0 & h1 & A & B). split; [exact C|]. split; [exact F|]. exists st, rd, h0, h1. auto.
    + intros h wr (C & h0 & h1 & A & ->). split; [exact Eo|]. exists h0, h1, [SCreateOrTruncate q (Ok wr)]. split; [exact A|]. split; [apply cr_truncated, F|]. rewrite <- app_assoc. reflexivity.
    + intros h x (C & h0 & h1 & A & B). split; [exact C|]. split; [exact F|]. exists st, rd, h0, h1. auto.
    + intros h wr (C & h0 & h1 & A & ->). split; [exact Eo|]. exists h0, h1, [SCreateNew q (Ok wr)]. split; [exact A|]. split; [apply cr_new, F|]. rewrite <- app_assoc. reflexivity.
  - apply g_ret. intros h (C & h0 & h1 & A & ->). split; [exact C|]. split; [exact Eo|].
    exists h0, h1, []. split; [exact A|]. split; [apply cr_stdout|]. rewrite app_nil_r. reflexivity.
Qed.

Definition convert_now (st : io_stream) (o : output_stream) (rd : reader) (wr : writer) (r : outcome cerr unit) (h : list syscall) : Prop :=
  match r with
  | Ok _ => exists src out h0, ready_to_convert force st o rd wr h0 /\ ends_in_error src = false /\ is_conversion lib d (flat src) out /\ h = h0 ++ [SConvert d rd wr src out (Some (Ok tt))]
  | Err e => exists src out h0, ready_to_convert force st o rd wr h0 /\ h = h0 ++ [SConvert d rd wr src out (Some (Err e))]
  | Panic => True
  end.
Lemma ho_convert st o rd wr : In st all ->
  ho (fun h => clean h /\ ready_to_convert force st o rd wr h) (t_convert lib d rd wr) (fun r h => clean h /\ convert_now st o rd wr r h).
Proof.
  intros Hst pre u r h u' [C Rd] (er & src & room & fl & r0 & snk & lines & Hr & Hs & Hc & -> & D).
  assert (G : r0 = Ok tt -> ends_in_error src = false /\ is_conversion lib d (flat src) (w_out snk)).
  { intros ->. pose proof (conversion_reads_all lib Hlib _ _ _ _ _ Hr Hc) as E. split; [exact E|]. exists er, src, room, fl, snk. auto 10. }
  destruct D as [(-> & ->)|(out & _ & -> & D)].
  - split.
    + intros b e a E. apply split_one in E as (-> & -> & _). rewrite app_nil_r. split; [exact C|]. split; [reflexivity|]. split; [eauto|].
      intros X. apply G. destruct r0 as [[]| |]; congruence || discriminate X.
    + intros x [= <-]. split; [apply clean_other; [exact C|discriminate]|]. destruct r0 as [[]|e|]; cbn [conversion_result].
      * destruct (G eq_refl) as [G1 G2]. exists src, (w_out snk), pre. auto.
      * exists src, (w_out snk), pre. auto.
      * exact I.
  - split.
    + intros b e a E. apply split_one in E as (-> & -> & _). rewrite app_nil_r. split; [exact C|]. split; [reflexivity|]. split; [eauto|]. discriminate.
    + intros x Ex. destruct D as [D|D]; rewrite D in Ex; [|discriminate Ex]. injection Ex as <-. split; [apply clean_other; [exact C|discriminate]|exact I].
Qed.

Definition attempted (st : io_stream) (r : outcome cerr unit * option path) (h : list syscall) : Prop :=
  match fst r with
  | Ok _ => forall p, s_input st = IFile p -> converted0 p h
  | Err e => forall q, snd r = Some q -> exists rd wr src out h0, ready_to_convert force st (OFile q) rd wr h0 /\ h = h0 ++ [SConvert d rd wr src out (Some (Err e))]
  | Panic => False
  end.
Lemma ho_attempt {k n} st : In st all -> ho clean (attempt_p trace (any_os lib) k n st force d) (good (attempted st)).
Proof.
  intros Hst. unfold attempt_p. cbn [any_os p_bind p_try p_ui p_lift p_ret p_convert].
  set (Op := fun (x : reader * writer * option path) h => exists o, snd x = output_cleanup o /\ ready_to_convert force st o (fst (fst x)) (snd (fst x)) h).
  eapply g_bind with (S := fun r h => match r with Ok x => Op x h | Err _ => True | Panic => False end).
  - eapply g_try with (Q := good Op).
    + eapply g_bind with (S := fun _ _ => True); [apply g_ui; auto|]. intros _.
      eapply g_bind with (S := fun o h => s_output st = Ok o /\ clean h); [apply g_lift; intros h [C _]; auto|].
      intros o. eapply h_pre with (P' := fun h => s_output st = Ok o /\ clean h); [|tauto]. apply h_and. intros Eo.
      eapply g_bind; [apply ho_open_input, Hst|]. intros rd.
      eapply g_bind; [apply (ho_open_output st o rd Hst Eo)|]. intros wr. apply g_ret. intros h [C K]. split; [exact C|]. exists o. auto.
    + intros x h [C K]. split; [exact C|]. intros N. destruct x; auto.
  - intros [[[rd wr] cb]|e|].
    + eapply h_pre with (P' := fun h => exists o, cb = output_cleanup o /\ clean h /\ ready_to_convert force st o rd wr h).
      2: { intros h (C & o & A & B). exists o. auto. }
      apply h_exists. intros o. apply h_and. intros ->.
      eapply g_bind with (S := fun r h => r <> Panic /\ convert_now st o rd wr r h).
      * eapply g_try; [apply ho_convert, Hst|]. intros x h [C K]. auto.
      * intros r. apply g_ret. intros h (C & Np & K). split; [exact C|]. unfold attempted. cbn [fst snd]. destruct r as [[]|e|].
        -- intros p Ep. destruct K as (src & out & h0 & A & B & D & ->). exists st, o, rd, wr, src, out, h0, []. auto 10.
        -- intros q Eq. destruct K as (src & out & h0 & A & ->). exists rd, wr, src, out, h0. destruct o as [q'|]; [injection Eq as ->; auto|discriminate Eq].
        -- destruct (Np eq_refl).
    + apply g_ret. intros h [C K]. split; [exact C|]. intros q E. discriminate E.
    + apply h_lift. intros h [_ []].
Qed.

Lemma ho_remove_failed q : ho (fun h => clean h /\ has_failed all force d q h) (remove_cb_p trace (any_os lib) q force) (good (fun _ _ => True)).
Proof.
  unfold remove_cb_p. cbn [any_os p_bind p_try p_ui p_remove p_ret]. eapply g_bind with (S := fun _ _ => True).
  - eapply g_try with (Q := fun _ h => clean h).
    + apply h_call; [intros h x [C F]; left; exact F|]. intros h x [C F] _. apply clean_failed; auto.
    + auto.
  - intros [[]|e|]; [apply g_ret; tauto| |apply g_ret; tauto]. destruct force; [apply g_ret; tauto|apply g_ui; tauto].
Qed.

Definition all_converted0 (cbs : list path) (h : list syscall) : Prop := forall p, In p cbs -> converted0 p h.
Lemma ho_step {k n} st : In st all -> ho clean (step_p trace (any_os lib) k n st force d) (good (fun r h => all_converted0 (fst r) h)).
Proof.
  intros Hst. unfold step_p. cbn [any_os p_bind p_ui p_ret p_lift]. eapply g_bind; [apply ho_attempt, Hst|]. intros [[[]|e|] cb].
  - apply g_ret. intros h [C K]. split; [exact C|]. cbn [fst] in *. unfold attempted in K. cbn [fst] in K. intros p. unfold input_cleanup. destruct (s_input st); intros []; [subst; auto|contradiction].
  - eapply g_bind with (S := fun _ h => forall q, cb = Some q -> has_failed all force d q h).
    + apply g_ui; [tauto|]. intros h u a [C K] _ q ->. unfold attempted in K. cbn [fst snd] in K. destruct (K q eq_refl) as (rd & wr & src & out & h0 & A & ->).
      eexists st, rd, wr, src, out, e, _, h0. split; [exact Hst|]. split; [exact A|]. rewrite <- app_assoc. reflexivity.
    + intros _. eapply g_bind with (S := fun _ _ => True); [|intros _; apply g_ret; intros h [C _]; split; [exact C|intros p []]].
      destruct cb as [q|]; [|apply g_ret; tauto]. eapply h_pre; [apply ho_remove_failed|]. intros h [C K]. auto.
  - apply h_lift. intros h [_ []].
Qed.
(** Facts about the past stay true. *)
Lemma g_frame {A} (P : list syscall -> Prop) (m : trace A) S (G : list syscall -> Prop) : (forall h h', G h -> G (h ++ h')) -> ho P m (good S) -> ho (fun h => P h /\ G h) m (good (fun a h => S a h /\ G h)).
Proof.
  intros Hg H pre u r h u' [Hp Gp] M. destruct (H pre u r h u' Hp M) as [K1 K2]. split; [exact K1|]. intros x E. destruct (K2 x E) as [C K]. split; [exact C|]. intros a Ea. split; [auto|]. apply Hg, Gp.
Qed.
Lemma all_converted0_more cbs h h' : all_converted0 cbs h -> all_converted0 cbs (h ++ h').
Proof. intros K p I. apply converted0_more, K, I. Qed.
Lemma ho_process {k n} l : incl l all -> ho clean (process_p trace (any_os lib) k n l force d) (good (fun r h => all_converted0 (fst r) h)).
Proof.
  revert k. induction l as [|st l IH]; intros k Hi; [apply g_ret; intros h C; split; [exact C|intros p []]|].
  cbn [process_p]. cbn [any_os p_bind p_ui p_ret] in *. eapply g_bind; [apply ho_step, Hi; left; reflexivity|]. intros [cbs errors]. cbn [fst].
  eapply g_bind with (S := fun _ h => all_converted0 cbs h); [apply g_ui; [tauto|intros h u a [C K] _; apply all_converted0_more, K]|]. intros _.
  eapply g_bind; [apply g_frame; [apply all_converted0_more|apply IH; intros x I; apply Hi; right; exact I]|]. intros [cbs' errors']. cbn [fst].
  apply g_ret. intros h (C & K & K'). split; [exact C|]. cbn [fst]. intros p I. apply in_app_iff in I as [I|I]; auto.
Qed.

(** Removing the originals *)
Definition removable (cbs : list path) (h : list syscall) : Prop := all_converted0 cbs h /\ removal_requested policy h.
Lemma requested_more h h' : removal_requested policy h -> removal_requested policy (h ++ h').
Proof. intros [E|(E & new & x & y & z & I & K)]; [left; exact E|]. right. split; [exact E|]. exists new, x, y, z. split; [apply in_or_app; auto|exact K]. Qed.
Lemma removable_more cbs h h' : removable cbs h -> removable cbs (h ++ h').
Proof. intros [A B]. split; [apply all_converted0_more, A|apply requested_more, B]. Qed.
Lemma ho_remove_all l : ho (removable l) (remove_all_p trace (any_os lib) l force) (fun _ _ => True).
Proof.
  induction l as [|p l IH]; [apply h_ret; auto|]. cbn [remove_all_p]. cbn [any_os p_bind] in *.
  eapply h_bind with (R := fun _ h => removable l h); [|intros []; exact IH|auto|auto].
  assert (T : forall h, removable (p :: l) h -> removable l h) by (intros h [A B]; split; [intros q I; apply A; right; exact I|exact B]).
  unfold remove_cb_p. cbn [any_os p_bind p_try p_remove p_ui p_ret]. eapply h_bind with (R := fun _ h => removable l h); [|..]; [|..|auto|auto].
  - eapply h_try with (R := fun _ h => removable l h); [|auto|auto]. apply h_call.
    + intros h x [A B]. right. split; [apply A; left; reflexivity|exact B].
    + intros h x K _. apply removable_more, T, K.
  - intros [[]|e|]; [apply h_ret; auto| |apply h_ret; auto]. destruct force; [apply h_ret; auto|]. apply h_ui; [intros; exact I|]. intros h u K. apply removable_more, K.
Qed.
Lemma ho_crypt : ho clean (crypt_streams_p trace (any_os lib) all policy force d) (fun _ _ => True).
Proof.
  unfold crypt_streams_p. cbn [any_os p_bind p_ui p_ret p_lift]. eapply h_bind; [apply ho_process; intros x I; exact I| |auto|auto]. intros [cbs errors].
  eapply h_bind with (R := fun _ _ => True); [|intros []; apply h_lift; auto|auto|auto].
  destruct cbs as [|p cbs]; [apply h_ret; auto|].
  eapply h_bind with (R := fun r h => r = Ok true -> removable (p :: cbs) h); [|..|auto|auto].
  - eapply h_pre with (P' := all_converted0 (p :: cbs)); [|intros h [_ K]; exact (K _ eq_refl)]. destruct policy eqn:Po.
    + apply h_ret. discriminate.
    + apply h_ret. intros h K _. split; [exact K|]. left. exact Po.
    + eapply h_bind with (R := fun r h => all_converted0 (p :: cbs) h /\ (r = Ok (Some true) -> removal_requested policy h)); [| |intros e h _; discriminate|intros h _; discriminate].
      * apply h_ui; [intros; exact I|]. intros h u K. split; [apply all_converted0_more, K|]. intros E.
        destruct (read_prompt_bool 0 question false u) as [r u'] eqn:Er. cbn [fst snd] in *. subst r. destruct (question_yes _ _ Er) as (before & reply & Et & Y).
        right. split; [exact Po|]. exists (new_events u u'), before, reply, []. split; [apply in_or_app; right; left; reflexivity|]. split; [|exact Y].
        unfold new_events. rewrite Et, skipn_app, skipn_all, PeanoNat.Nat.sub_diag. reflexivity.
      * intros a. apply h_ret. intros h [K K'] E. split; [exact K|]. apply K'. destruct a as [[]|]; congruence.
  - intros []; [|apply h_ret; auto]. eapply h_pre; [apply ho_remove_all|]. auto.
Qed.
Lemma crypt_justified u r h u' : crypt_calls lib all policy force d u r h u' -> forall b e, happens h b e -> justified b e.
Proof.
  intros H b e [a E]. assert (C : clean []) by (intros x p y z X; destruct (split_nil _ _ _ X)).
  exact (proj1 (ho_crypt [] u r h u' C H) b e a E).
Qed.
End Crypt.

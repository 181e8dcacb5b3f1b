(** Proofs about progress reporting. *)
From Coq Require Import List NArith Bool Lia Sorting.Sorted.
From Verif Require Import Base BaseFacts CliErrors Progress ProgressSpec.
Import ListNotations.
Local Open Scope N_scope.

Lemma sub64_small a b : b <= a -> a < two64 -> sub64 a b = a - b.
Proof.
  intros L B. unfold sub64. replace (a + two64 - b) with (a - b + 1 * two64) by lia.
  rewrite N.mod_add by discriminate. apply N.mod_small. lia.
Qed.

Lemma wrap64_small a : a < two64 -> wrap64 a = a.
Proof. apply N.mod_small. Qed.

Section Run.
Variables (start : N) (fs : option N) (pts : list (N * N)).

Definition R (x y : N * N) : Prop := fst x <= fst y /\ snd x <= snd y /\ (fs = None \/ not_stalled x y).
Definition bounded (x : N * N) : Prop := 1000 * snd x < 9223372036854775808 /\ ms start (fst x) < two64.

Hypothesis Hpts : Forall bounded pts.
Hypothesis Hstart : Forall (fun x => start <= fst x) pts.
Hypothesis Hfs : match fs with Some f => f < 9223372036854775808 | None => True end.

Record good (p : printer) : Prop := {
  g_start : p_start p = start;
  g_fs : p_filesize p = fs;
  g_ne : p_stamps p <> [];
  g_in : incl (p_stamps p) pts;
  g_sorted : StronglySorted R (p_stamps p);
  g_lines : Forall (truthful fs pts) (p_lines p)
}.

Lemma ms_le x y : start <= x -> ms x y <= ms start y.
Proof. intros L. unfold ms. apply N.div_le_mono; [discriminate|]. lia. Qed.

Lemma sorted_ends l x y l' : StronglySorted R l -> l = x :: l' -> (exists r, rev l = y :: r) -> x = y \/ R x y.
Proof.
  intros S E (r & E'). subst l. inversion S; subst.
  assert (In y (x :: l')) as I by (apply in_rev; rewrite E'; now left).
  destruct I as [->|I]; [now left|right]. rewrite Forall_forall in H2. auto.
Qed.

Lemma line_ok p fin : good p -> exists p', print_progress_line p fin = Ok p' /\ good p' /\
  p_stamps p' = p_stamps p /\ p_written p' = p_written p /\ p_last p' = p_last p.
Proof.
  intros G. unfold print_progress_line.
  destruct (rev (p_stamps p)) as [|[te we] r] eqn:Er.
  { exfalso. apply (g_ne p G). apply (f_equal (@rev _)) in Er. rewrite rev_involutive in Er. exact Er. }
  destruct (p_stamps p) as [|[ts ws] ss] eqn:Es; [discriminate Er|].
  assert (In (te, we) pts) as Ie.
  { apply (g_in p G). rewrite Es. apply in_rev. rewrite Er. now left. }
  assert (In (ts, ws) pts) as Is by (apply (g_in p G); rewrite Es; now left).
  assert ((ts, ws) = (te, we) \/ R (ts, ws) (te, we)) as C.
  { pose proof (g_sorted p G) as S. rewrite Es in S. eapply sorted_ends; [exact S|reflexivity|]. exists r. exact Er. }
  assert (ts <= te /\ ws <= we /\ (fs = None \/ not_stalled (ts, ws) (te, we))) as (Lt & Lw & St).
  { destruct C as [C|(A & B & D)]; [injection C as -> ->|cbn [fst snd] in *; auto].
    split; [lia|]. split; [lia|]. right. left. unfold ms. cbn [fst]. rewrite N.sub_diag. discriminate. }
  pose proof Hpts as B. rewrite Forall_forall in B. pose proof (B _ Ie) as [Be1 Be2]. pose proof (B _ Is) as [Bs1 Bs2].
  cbn [fst snd] in *.
  pose proof Hstart as Hs. rewrite Forall_forall in Hs. pose proof (Hs _ Is) as Ls. cbn [fst] in Ls.
  unfold millis_between. rewrite (proj2 (N.ltb_ge te ts)) by lia. cbn [bind].
  fold (ms ts te).
  assert (ms ts te < two64) as Lm by (pose proof (ms_le ts te Ls); lia).
  rewrite (wrap64_small (ms ts te)) by exact Lm.
  assert (two64 = 18446744073709551616) as T64 by reflexivity.
  rewrite sub64_small by lia. rewrite (wrap64_small ((we - ws) * 1000)) by lia.
  set (bytes := match p_filesize p with Some filesize => if filesize <? we then filesize else we | None => we end).
  assert (bytes = match fs with Some f => N.min f we | None => we end) as Eb.
  { unfold bytes. rewrite (g_fs p G). destruct fs as [f|]; [|reflexivity]. destruct (N.ltb_spec f we); lia. }
  set (speed := if 1000 <? ms ts te then Some ((we - ws) * 1000 / ms ts te) else None).
  assert (speed = if 1000 <? ms ts te then Some (1000 * (we - ws) / ms ts te) else None) as Esp.
  { unfold speed. now rewrite (N.mul_comm (we - ws)). }
  assert (forall s f, speed = Some s -> fs = Some f -> 1 <= s /\ s < 9223372036854775808) as Hsp.
  { intros s f E F. unfold speed in E. destruct (N.ltb_spec 1000 (ms ts te)) as [L|L]; [|discriminate E].
    injection E as <-. destruct St as [St|St]; [congruence|]. unfold not_stalled in St. cbn [fst snd] in St. split.
    - apply N.div_le_lower_bound; [lia|]. lia.
    - apply N.div_lt_upper_bound; [lia|]. nia. }
  match goal with |- context [bind ?e _] => set (eta := e) end.
  assert (exists o, eta = Ok o /\
    match speed, fs, o with
    | Some s, Some f, Some e => f - bytes <= e * s /\ e * s < (f - bytes) + s
    | Some _, Some _, None => False
    | _, _, Some _ => False
    | _, _, None => True
    end) as (o & Eo & Ho).
  { unfold eta. rewrite (g_fs p G). destruct speed as [s|] eqn:E1; [|exists None; split; [reflexivity|exact I]].
    destruct fs as [f|] eqn:E2; [|exists None; split; [reflexivity|exact I]].
    destruct (Hsp s f eq_refl eq_refl) as [S1 S2]. clear eta. clearbody bytes.
    rewrite (sub64_small f bytes) by lia. rewrite wrap64_small by lia. rewrite sub64_small by lia.
    unfold div64. rewrite (proj2 (N.eqb_neq s 0)) by lia. cbn [bind].
    eexists. split; [reflexivity|].
    pose proof (N.div_mod (f - bytes + s - 1) s ltac:(lia)) as D.
    pose proof (N.mod_lt (f - bytes + s - 1) s ltac:(lia)) as M.
    revert D M. generalize ((f - bytes + s - 1) mod s) ((f - bytes + s - 1) / s). intros m q D M. nia. }
  rewrite Eo. cbn [bind]. eexists. split; [reflexivity|]. cbn [p_stamps p_written p_last].
  split; [|split; [reflexivity|split; reflexivity]].
  constructor; cbn [p_start p_filesize p_stamps p_lines].
  - apply (g_start p G).
  - apply (g_fs p G).
  - discriminate.
  - rewrite <- Es. apply (g_in p G).
  - rewrite <- Es. apply (g_sorted p G).
  - apply Forall_app. split; [apply (g_lines p G)|]. constructor; [|constructor].
    exists (ts, ws), (te, we). cbn [fst snd l_bytes l_speed l_eta].
    repeat (split; [first [assumption|lia]|]). exact Ho.
Qed.

Lemma sorted_snoc l x : StronglySorted R l -> Forall (fun y => R y x) l -> StronglySorted R (l ++ [x]).
Proof.
  induction 1 as [|y l S IH F]; intros A; [repeat constructor|]. cbn [app]. inversion A; subst.
  constructor; [auto|]. apply Forall_app. split; [assumption|]. constructor; [assumption|constructor].
Qed.

Lemma sorted_prefix l k : StronglySorted R (l ++ k) -> StronglySorted R l.
Proof.
  induction l as [|y l IH]; intros S; [constructor|]. cbn [app] in S. inversion S; subst. constructor; [auto|].
  apply Forall_app in H2. apply H2.
Qed.

Lemma notify_ok p now n : good p -> In (now, p_written p + n) pts ->
  Forall (fun y => R y (now, p_written p + n)) (p_stamps p) -> start <= now ->
  exists p', print_progress p now n = Ok p' /\ good p' /\ p_written p' = p_written p + n /\
    incl (p_stamps p') ((now, p_written p + n) :: p_stamps p).
Proof.
  intros G I A L. unfold print_progress. rewrite (g_start p G).
  unfold millis_between. rewrite (proj2 (N.ltb_ge now start)) by lia. cbn [bind].
  pose proof Hpts as B. rewrite Forall_forall in B. destruct (B _ I) as [Bw _]. cbn [snd] in Bw.
  assert (two64 = 18446744073709551616) as T64 by reflexivity.
  rewrite (wrap64_small (p_written p + n)) by lia.
  destruct (match p_last p with Some q => _ | None => false end).
  - destruct (rev (p_stamps p)) as [|z r] eqn:Er.
    { exfalso. apply (g_ne p G). apply (f_equal (@rev _)) in Er. rewrite rev_involutive in Er. exact Er. }
    assert (p_stamps p = rev r ++ [z]) as Es.
    { apply (f_equal (@rev _)) in Er. rewrite rev_involutive in Er. exact Er. }
    eexists. split; [reflexivity|]. cbn [p_written p_stamps].
    assert (incl (rev r) (p_stamps p)) as Ii by (rewrite Es; apply incl_appl, incl_refl).
    split; [|split; [reflexivity|]].
    + constructor; cbn [p_start p_filesize p_stamps p_lines].
      * reflexivity.
      * apply (g_fs p G).
      * destruct (rev r); discriminate.
      * apply incl_app; [intros x Ix; apply (g_in p G), Ii, Ix|]. intros x [<-|[]]. exact I.
      * apply sorted_snoc; [pose proof (g_sorted p G) as S; rewrite Es in S; eapply sorted_prefix, S|].
        rewrite Es in A. apply Forall_app in A. apply A.
      * apply (g_lines p G).
    + apply incl_app; [intros x Ix; right; apply Ii, Ix|]. intros x [<-|[]]. now left.
  - match goal with |- context [print_progress_line ?q false] => set (q0 := q) end.
    assert (incl (p_stamps q0) ((now, p_written p + n) :: p_stamps p) /\ p_stamps q0 <> [] /\ StronglySorted R (p_stamps q0))
      as (Ii & Nq & Sq).
    { assert (StronglySorted R (p_stamps p ++ [(now, p_written p + n)])) as S by (apply sorted_snoc; [apply (g_sorted p G)|exact A]).
      assert (incl (p_stamps p ++ [(now, p_written p + n)]) ((now, p_written p + n) :: p_stamps p)) as Ii.
      { apply incl_app; [apply incl_tl, incl_refl|]. intros x [<-|[]]. now left. }
      unfold q0. cbn [p_stamps]. destruct (KEEP_STAMPS_COUNT <? _).
      - destruct (p_stamps p) as [|z s] eqn:E; [exfalso; exact (g_ne p G E)|]. cbn [app tl] in *.
        split; [intros x Ix; apply Ii; now right|]. split; [destruct s; discriminate|]. now inversion S.
      - split; [exact Ii|]. split; [destruct (p_stamps p); discriminate|exact S]. }
    assert (good q0) as Gq.
    { constructor.
      - reflexivity.
      - apply (g_fs p G).
      - exact Nq.
      - intros x Ix. destruct (Ii x Ix) as [<-|Ix']; [exact I|]. apply (g_in p G), Ix'.
      - exact Sq.
      - apply (g_lines p G). }
    destruct (line_ok q0 false Gq) as (p' & E & G' & Es & Ew & _).
    exists p'. split; [exact E|]. split; [exact G'|]. split; [exact Ew|]. rewrite Es. exact Ii.
Qed.

Lemma notify_all_ok events : forall p seen, good p ->
  incl (p_stamps p) seen -> StronglySorted R (seen ++ totals (p_written p) events) ->
  incl (totals (p_written p) events) pts -> 
  exists p', notify_all p events = Ok p' /\ good p'.
Proof.
  induction events as [|[now n] events IH]; intros p seen G I S P.
  - exists p. split; [reflexivity|exact G].
  - cbn [totals] in S, P. cbn [notify_all].
    assert (In (now, p_written p + n) pts) as In1 by (apply P; now left).
    assert (Forall (fun y => R y (now, p_written p + n)) seen) as F.
    { clear - S. induction seen as [|y seen IH]; [constructor|]. cbn [app] in S. inversion S; subst.
      constructor; [|auto]. rewrite Forall_forall in H2. apply H2. apply in_or_app. right. now left. }
    assert (Forall (fun y => R y (now, p_written p + n)) (p_stamps p)) as F'.
    { rewrite Forall_forall in *. intros y Iy. apply F, I, Iy. }
    pose proof Hstart as Hs. rewrite Forall_forall in Hs. pose proof (Hs _ In1) as L. cbn [fst] in L.
    destruct (notify_ok p now n G In1 F' L) as (p' & E & G' & Ew & Ii). rewrite E. cbn [bind].
    apply (IH p' (seen ++ [(now, p_written p + n)]) G').
    + intros x Ix. apply in_or_app. destruct (Ii x Ix) as [<-|Ix']; [right; now left|left; apply I, Ix'].
    + rewrite <- app_assoc, Ew. exact S.
    + rewrite Ew. intros x Ix. apply P. now right.
Qed.

End Run.

Lemma report_ok start fs events :
  in_range start fs events ->
  StronglySorted (R fs) (points start events) ->
  exists lines, report start fs events = Ok lines /\ Forall (truthful fs (points start events)) lines.
Proof.
  intros [B Bf] S. unfold report.
  assert (Forall (fun x => start <= fst x) (points start events)) as Hs.
  { unfold points in *. inversion S; subst. constructor; [cbn; lia|]. eapply Forall_impl; [|exact H2]. intros x (L & _). exact L. }
  set (p0 := set_filesize (new_printer start) fs).
  assert (good start fs (points start events) p0) as G0.
  { constructor; cbn.
    - reflexivity.
    - reflexivity.
    - discriminate.
    - intros x [<-|[]]. now left.
    - repeat constructor.
    - constructor. }
  destruct (notify_all_ok start fs (points start events) B Hs Bf events p0 [(start, 0)] G0) as (p' & E & G').
  - apply incl_refl.
  - exact S.
  - intros x I. right. exact I.
  - rewrite E. cbn [bind]. unfold drop_printer. destruct (p_once p').
    + destruct (line_ok start fs (points start events) B Hs Bf p' true G') as (p2 & E2 & G2 & _). rewrite E2. cbn [bind].
      exists (p_lines p2). split; [reflexivity|]. apply (g_lines _ _ _ _ G2).
    + cbn [bind]. exists (p_lines p'). split; [reflexivity|]. apply (g_lines _ _ _ _ G').
Qed.

Lemma sorted_impl {A} (P Q : A -> A -> Prop) l : (forall x y, In x l -> In y l -> P x y -> Q x y) -> StronglySorted P l -> StronglySorted Q l.
Proof.
  intros H S. induction S as [|x l S IH F]; [constructor|]. constructor.
  - apply IH. intros a b Ia Ib. apply H; now right.
  - rewrite Forall_forall in *. intros y I. apply H; [now left|now right|auto].
Qed.

(** Totals only grow. *)
Lemma totals_ge events : forall acc, Forall (fun p => acc <= snd p) (totals acc events).
Proof.
  induction events as [|[t n] events IH]; intros acc; cbn [totals]; [constructor|].
  constructor; [cbn [snd]; lia|]. eapply Forall_impl; [|apply (IH (acc + n))]. cbn. intros; lia.
Qed.

Lemma totals_sorted events : forall acc, StronglySorted (fun x y => snd x <= snd y) (totals acc events).
Proof.
  induction events as [|[t n] events IH]; intros acc; cbn [totals]; [constructor|].
  constructor; [apply IH|]. cbn [snd]. apply totals_ge.
Qed.

Lemma sorted_and {A} (P Q : A -> A -> Prop) l : StronglySorted P l -> StronglySorted Q l -> StronglySorted (fun x y => P x y /\ Q x y) l.
Proof.
  induction 1 as [|x l S IH F]; intros S'; [constructor|]. inversion S'; subst. constructor; [auto|].
  rewrite Forall_forall in *. auto.
Qed.

Lemma points_sorted start fs events :
  StronglySorted clock_ok (points start events) ->
  fs = None \/ StronglySorted not_stalled (points start events) ->
  StronglySorted (R fs) (points start events).
Proof.
  intros C D.
  assert (StronglySorted (fun x y => snd x <= snd y) (points start events)) as W.
  { unfold points. constructor; [apply totals_sorted|]. apply totals_ge. }
  destruct D as [->|D].
  - eapply sorted_impl; [|exact (sorted_and _ _ _ C W)]. intros x y _ _ [H1 H2]. repeat split; auto.
  - eapply sorted_impl; [|exact (sorted_and _ _ _ D (sorted_and _ _ _ C W))].
    intros x y _ _ (H1 & H2 & H3). repeat split; auto.
Qed.

(** One notification of fewer bytes than seconds since the start is fatal. *)
Lemma stalled_start_panics start f t n events :
  1000 < ms start t -> start <= t -> 1000 * n < ms start t -> ms start t < two64 ->
  report start (Some f) ((t, n) :: events) = Panic.
Proof.
  intros L Ls Ln Lt. unfold report. cbn [notify_all]. unfold print_progress. cbn [p_start set_filesize new_printer p_written p_last p_stamps].
  unfold millis_between at 1. rewrite (proj2 (N.ltb_ge t start)) by lia. cbn [bind].
  change (KEEP_STAMPS_COUNT <? _) with false. cbv beta iota zeta.
  unfold print_progress_line. cbn [p_stamps p_filesize app rev].
  unfold millis_between. rewrite (proj2 (N.ltb_ge t start)) by lia. cbn [bind]. fold (ms start t).
  assert (two64 = 18446744073709551616) as T64 by reflexivity.
  rewrite (wrap64_small (ms start t)) by exact Lt. rewrite N.add_0_l. rewrite (wrap64_small n) by lia.
  rewrite sub64_small by lia. rewrite N.sub_0_r. rewrite (wrap64_small (n * 1000)) by lia.
  rewrite (proj2 (N.ltb_lt 1000 _)) by lia. rewrite (N.div_small (n * 1000)) by lia.
  unfold div64. change (0 =? 0) with true. reflexivity.
Qed.

(** C76: the progress display is one line, which says how far the file has come. *)
From Coq.Strings Require Import Byte String.
From Coq Require Import List NArith ZArith Bool Lia PeanoNat.
From Verif Require Import Base BaseFacts CliErrors Text Util UtilSpec UtilProofs2 Progress Layout LayoutSpec LayoutProofs LayoutProofs2.
Import ListNotations.
Local Open Scope N_scope.

(** C76: a progress line for any numbers of 64 bits, with no more bytes done than the file has, can be
    formatted; it has its fields in fixed columns, says the right percentage, size, speed and time, and
    is at most 73 printable characters.  [up] is how ties are broken when numbers are rounded for printing. *)
Theorem C76_a_line_says_how_far_the_file_has_come {E} (up : N -> bool) (w : N) (f s e : option N) :
  w < two64 -> match s with Some s => s < two64 | None => True end -> match e with Some e => e < two64 | None => True end ->
  match f with Some f => w <= f | None => True end ->
  exists t, @format_progress_line E up w f s e = Ok t /\ line_text w f s e t /\ Forall printable t /\ (length t <= 73)%nat.
Proof.
  intros Ww Ws We L. destruct (@format_line_ok E up w f s e Ww Ws We L) as (t & Ht & Lt).
  exists t. split; [exact Ht|]. split; [exact Lt|]. apply (line_text_fits w f s e t We Lt).
Qed.
Print Assumptions C76_a_line_says_how_far_the_file_has_come.

(** C76: whatever the times and amounts of the notifications, a report that prints anything leaves one more
    line on a terminal of at least 73 columns, namely its last one; all other lines and the position
    of the cursor are as they were. *)
Theorem C76_one_line_is_left {E} (up : N -> bool) width above start fs events ls :
  (73 <= width)%nat -> match fs with Some f => f < two64 | None => True end -> report start fs events = Ok ls ->
  ls = [] \/
  exists out l t, @draw_lines E up fs ls = Ok out /\ In l ls /\ line_text (l_bytes l) fs (l_speed l) (l_eta l) t /\
    l = last ls l /\ shown width out (fresh_line above) = fresh_line (above ++ [t]).
Proof.
  intros W Wf H. destruct (report_lines start fs events ls Wf H) as [->|(ls' & l & -> & O & Fin & B)]; [left; reflexivity|right].
  destruct (@draw_ok E up fs (ls' ++ [l]) B) as (ts & out & P & D & -> & T).
  apply Forall2_app_inv_l in P as (ts' & tl & P1 & P2 & ->). inversion P2 as [|? t ? tl' Pl P0]; subst. inversion P0; subst.
  eexists _, l, t. split; [exact D|]. split; [apply in_or_app; right; left; reflexivity|]. split; [exact Pl|].
  split; [symmetry; apply last_last|].
  apply Forall_app in T as [T1 T2]. inversion T2 as [|? ? [Tt Tl] _]; subst.
  pose proof (pictures_length fs _ _ P1) as Len.
  assert (combine (ls' ++ [l]) (ts' ++ [t]) = combine ls' ts' ++ [(l, t)]) as ->.
  { clear - Len. revert ts' Len. induction ls' as [|x ls' IH]; intros [|y ts'] L; try discriminate L; [reflexivity|].
    cbn [app combine]. f_equal. apply IH. injection L as L. exact L. }
  rewrite map_app, concat_app. unfold fresh_line at 1.
  rewrite shown_open; [|exact W|exact T1|exact Len|exact O].
  cbn [map concat fst snd]. rewrite shown_message by (exact Tt || lia). rewrite Fin. reflexivity.
Qed.
Print Assumptions C76_one_line_is_left.

(** C76: until then, the line of the cursor shows the latest line, and the cursor stays at its beginning. *)
Theorem C76_the_latest_line_is_shown {E} (up : N -> bool) width above start fs events ls before l after :
  (73 <= width)%nat -> match fs with Some f => f < two64 | None => True end -> report start fs events = Ok ls ->
  ls = before ++ l :: after -> after <> [] ->
  exists out t, @draw_lines E up fs (before ++ [l]) = Ok out /\ line_text (l_bytes l) fs (l_speed l) (l_eta l) t /\
    shown width out (fresh_line above) = mkScreen above t 0.
Proof.
  intros W Wf H El NE. destruct (report_lines start fs events ls Wf H) as [->|(ls' & l' & E' & O & Fin & B)]; [destruct before; discriminate El|].
  assert (Forall (fun l => l_final l = false) (before ++ [l]) /\ Forall (line_ok fs) (before ++ [l])) as [O' B'].
  { destruct (exists_last NE) as (m & x & ->). rewrite El in B. split.
    - assert (ls' = before ++ l :: m) as ->.
      { rewrite E' in El. rewrite app_comm_cons, app_assoc in El. apply app_inj_tail in El as [-> _]. reflexivity. }
      apply Forall_app in O as [O1 O2]. inversion O2; subst. apply Forall_app. split; [exact O1|constructor; [assumption|constructor]].
    - apply Forall_app in B as [B1 B2]. inversion B2; subst. apply Forall_app. split; [exact B1|constructor; [assumption|constructor]]. }
  destruct (@draw_ok E up fs (before ++ [l]) B') as (ts & out & P & D & -> & T).
  pose proof (pictures_length fs _ _ P) as Len. pose proof P as P'.
  apply Forall2_app_inv_l in P' as (ts' & tl & P1 & P2 & Ets). inversion P2 as [|? t ? tl' Pl P0]; subst. inversion P0; subst.
  eexists _, t. split; [exact D|]. split; [exact Pl|]. unfold fresh_line.
  rewrite <- (app_nil_r (concat _)). rewrite shown_open; [|exact W|exact T|exact Len|exact O'].
  rewrite last_last. reflexivity.
Qed.
Print Assumptions C76_the_latest_line_is_shown.

(** C76: the width matters.  On a terminal of 50 columns longer lines wrap, the clearing of the line only
    reaches their last part, and a report of three lines leaves a line for each of them and one for the rest
    of the last. *)
Theorem C76_narrow_terminals_refuted :
  exists start fs events ls out t1 t2 t3 t4, report start fs events = Ok ls /\ @draw_lines cerr N.odd fs ls = Ok out /\
    length ls = 3%nat /\ shown 50 out (fresh_line []) = fresh_line [t1; t2; t3; t4].
Proof.
  exists 0, (Some 1000000000000), [(2000000000, 10000000); (4000000000, 1000000)]. eexists _, _, _, _, _, _.
  split; [vm_compute; reflexivity|]. split; [vm_compute; reflexivity|]. split; vm_compute; reflexivity.
Qed.
Print Assumptions C76_narrow_terminals_refuted.

(** A concrete report: a third of the file after two seconds, and all of it after four. *)
Example C76_case :
  exists ls out, report 0 (Some 3000000) [(2000000000, 1000000); (4000000000, 2000000)] = Ok ls /\
    @draw_lines cerr N.odd (Some 3000000) ls = Ok out /\
    shown 80 out (fresh_line [lit "a -> a.rypt (1/1)"]) =
    fresh_line [lit "a -> a.rypt (1/1)"; lit "   100.0 %       2.86 MiB     732.42 KiB/s   ETA  0:00s"].
Proof. eexists _, _. split; [vm_compute; reflexivity|]. split; vm_compute; reflexivity. Qed.

Example C76_line_case :
  @format_progress_line cerr N.odd 1000000 (Some 3000000) (Some 500000) (Some 4) =
  Ok (lit "    33.3 %     976.56 KiB     488.28 KiB/s   ETA  0:04s").
Proof. vm_compute. reflexivity. Qed.

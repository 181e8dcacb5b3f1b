(** Proofs about what progress lines leave on a terminal. *)
From Coq.Strings Require Import Byte String.
From Coq Require Import List NArith ZArith Bool Lia PeanoNat.
From Verif Require Import Base BaseFacts CliErrors Text Util UtilSpec UtilProofs2 Progress Layout LayoutSpec LayoutProofs.
Import ListNotations.
Local Open Scope N_scope.

Lemma shown_char width c t s : c <> 27 ->
  shown width (c :: t) s = shown width t
    (if c =? 10 then mkScreen (sc_above s ++ [sc_line s]) [] 0
     else if c =? 13 then mkScreen (sc_above s) (sc_line s) 0
     else type_char width s c).
Proof.
  intros NE. destruct c as [|p]; [reflexivity|].
  do 5 (destruct p as [p|p|]; try reflexivity). congruence.
Qed.
Lemma shown_clear width t s : shown width (27 :: 91 :: 50 :: 75 :: t) s = shown width t (mkScreen (sc_above s) [] (sc_column s)).
Proof. reflexivity. Qed.

(** Typing at the end of a line that fits. *)
Lemma shown_typed width t : forall above l rest, Forall printable t -> (length l + length t <= width)%nat ->
  shown width (t ++ rest) (mkScreen above l (length l)) = shown width rest (mkScreen above (l ++ t) (length (l ++ t))).
Proof.
  induction t as [|c t IH]; intros above l rest F L; [rewrite app_nil_r; reflexivity|].
  inversion F as [|? ? Hc F']; subst. unfold printable in Hc. cbn [app].
  rewrite shown_char by lia. cbn [length] in L.
  destruct (N.eqb_spec c 10) as [X|X]; [lia|]. destruct (N.eqb_spec c 13) as [Y|Y]; [lia|].
  unfold type_char. cbn [sc_column sc_line sc_above].
  destruct (Nat.ltb_spec (length l) width) as [Z|Z]; [|lia].
  rewrite firstn_all, Nat.sub_diag, skipn_all2 by lia. cbn [repeat app].
  replace (S (length l)) with (length (l ++ [c])) by (rewrite app_length; cbn; lia).
  rewrite IH; [|exact F'|rewrite app_length; cbn [length]; lia].
  rewrite <- app_assoc. reflexivity.
Qed.

Lemma shown_message width t finish above l rest : Forall printable t -> (length t <= width)%nat ->
  shown width (progress_message t finish ++ rest) (mkScreen above l 0) =
  shown width rest (if finish then fresh_line (above ++ [t]) else mkScreen above t 0).
Proof.
  intros F L. unfold progress_message, TERMINAL_CLEAR_LINE. cbn [app]. rewrite shown_clear. cbn [sc_above sc_column].
  rewrite <- app_assoc. rewrite (shown_typed width t above [] _ F) by (cbn [length]; lia). cbn [app].
  destruct finish; cbn [app]; rewrite shown_char by discriminate; reflexivity.
Qed.

(** ** The lines of a report *)

Definition line_ok (fs : option N) (l : line) : Prop :=
  l_bytes l < two64 /\ word (l_speed l) /\ word (l_eta l) /\ match fs with Some f => l_bytes l <= f | None => True end.

Record fits (fs : option N) (p : printer) : Prop := {
  f_fs : p_filesize p = fs;
  f_stamps : Forall (fun x => snd x < two64) (p_stamps p);
  f_lines : Forall (line_ok fs) (p_lines p);
  f_open : Forall (fun l => l_final l = false) (p_lines p);
  f_once : p_once p = true <-> p_lines p <> []
}.

Lemma wrap64_lt n : wrap64 n < two64.
Proof. apply N.mod_lt. discriminate. Qed.

Lemma line_fits fs p fin p' : word fs -> fits fs p -> print_progress_line p fin = Ok p' ->
  exists l, p_lines p' = p_lines p ++ [l] /\ line_ok fs l /\ l_final l = fin /\ p_stamps p' = p_stamps p /\
    p_filesize p' = p_filesize p /\ p_once p' = true.
Proof.
  intros W G H. unfold print_progress_line in H. pose proof (f_stamps _ _ G) as FS.
  assert (FR : Forall (fun x => snd x < two64) (rev (p_stamps p))) by (apply Forall_rev, FS).
  destruct (rev (p_stamps p)) as [|[te be] r]; [discriminate H|].
  destruct (p_stamps p) as [|[ts bs] r'] eqn:Es; [discriminate H|].
  inversion FR as [|? ? Be _]; subst. cbn [snd] in Be.
  apply bind_ok in H as (delta & _ & H). cbv zeta in H.
  apply bind_ok in H as (eta & He & H). injection H as <-. cbn [p_lines p_stamps p_filesize p_once].
  rewrite (f_fs _ _ G) in *.
  eexists. split; [reflexivity|]. split; [|repeat split; reflexivity].
  unfold line_ok. cbn [l_bytes l_speed l_eta].
  split; [destruct fs as [f|]; [destruct (N.ltb_spec f be); [exact W|exact Be]|exact Be]|].
  split.
  - destruct (1000 <? wrap64 delta) eqn:D; [|exact I]. cbn [word].
    apply N.le_lt_trans with (wrap64 (sub64 be bs * 1000)); [|apply wrap64_lt].
    apply N.div_le_upper_bound; [apply N.ltb_lt in D; lia|]. apply N.ltb_lt in D.
    generalize (wrap64 (sub64 be bs * 1000)). intros x. nia.
  - split; [|destruct fs as [f|]; [destruct (N.ltb_spec f be); lia|exact I]].
    destruct (if 1000 <? wrap64 delta then _ else None) as [sp|]; [|injection He as <-; exact I].
    destruct fs as [f|]; [|injection He as <-; exact I].
    apply bind_ok in He as (q & Hq & He). injection He as <-. unfold div64 in Hq.
    destruct (N.eqb_spec sp 0) as [Z|Z]; [discriminate Hq|]. injection Hq as <-. cbn [word].
    match goal with |- ?a / ?b < _ => apply N.le_lt_trans with a; [|unfold sub64; apply N.mod_lt; discriminate] end.
    apply N.div_le_upper_bound; [exact Z|]. match goal with |- ?a <= _ => generalize a end. intros x. nia.
Qed.

Lemma print_fits fs p now n p' : word fs -> fits fs p -> print_progress p now n = Ok p' -> fits fs p'.
Proof.
  intros W G H. unfold print_progress in H. cbv zeta in H. apply bind_ok in H as (el & _ & H).
  set (w := wrap64 (p_written p + n)) in *. assert (Bw : w < two64) by apply wrap64_lt. clearbody w.
  destruct (match p_last p with Some q => _ | None => false end).
  - destruct (rev (p_stamps p)) as [|x r] eqn:Er; [discriminate H|]. injection H as <-.
    pose proof (Forall_rev (f_stamps _ _ G)) as FR. rewrite Er in FR. inversion FR as [|? ? _ FR']; subst.
    constructor; cbn [p_filesize p_stamps p_lines p_once]; try apply G.
    apply Forall_app. split; [apply Forall_rev, FR'|repeat constructor; exact Bw].
  - assert (G' : fits fs (mkPrinter (p_start p)
        (let stamps := p_stamps p ++ [(now, w)] in if KEEP_STAMPS_COUNT <? lenN stamps then tl stamps else stamps)
        (Some (el / PRINT_PERIOD)) (p_once p) (p_filesize p) w (p_lines p))).
    { constructor; cbn [p_filesize p_stamps p_lines p_once]; try apply G. cbv zeta.
      assert (F : Forall (fun x => snd x < two64) (p_stamps p ++ [(now, w)])) by (apply Forall_app; split; [apply G|repeat constructor; exact Bw]).
      destruct (KEEP_STAMPS_COUNT <? _); [|exact F]. destruct F; [constructor|assumption]. }
    cbv zeta in G'. destruct (line_fits fs _ _ _ W G' H) as (l & El & Ol & Fl & Es & Ef & Eo).
    constructor.
    + rewrite Ef. apply G.
    + rewrite Es. apply G'.
    + rewrite El. apply Forall_app. split; [apply G|repeat constructor; apply Ol].
    + rewrite El. apply Forall_app. split; [apply G|repeat constructor; exact Fl].
    + rewrite El, Eo. split; [|reflexivity]. intros _ X. destruct (p_lines p); discriminate X.
Qed.

Lemma notify_fits fs events : forall p p', word fs -> fits fs p -> notify_all p events = Ok p' -> fits fs p'.
Proof.
  induction events as [|[now n] events IH]; intros p p' W G H; cbn [notify_all] in H; [injection H as <-; exact G|].
  apply bind_ok in H as (q & Hq & H). apply (IH q p' W); [|exact H]. apply (print_fits fs p now n q W G Hq).
Qed.

(** A report is either silent, or unfinished lines followed by one finished one. *)
Lemma report_lines start fs events ls : word fs -> report start fs events = Ok ls ->
  ls = [] \/ exists ls' l, ls = ls' ++ [l] /\ Forall (fun l => l_final l = false) ls' /\ l_final l = true /\ Forall (line_ok fs) ls.
Proof.
  intros W H. unfold report in H. apply bind_ok in H as (p & Hp & H). apply bind_ok in H as (q & Hq & H). injection H as <-.
  assert (G : fits fs p).
  { apply (notify_fits fs events (set_filesize (new_printer start) fs) p W); [|exact Hp].
    constructor; cbn [set_filesize new_printer p_filesize p_stamps p_lines p_once]; try constructor; try discriminate; try congruence;
      cbn [snd]; try reflexivity; try constructor. }
  unfold drop_printer in Hq. destruct (p_once p) eqn:O.
  - right. destruct (line_fits fs p true q W G Hq) as (l & El & Ol & Fl & _). exists (p_lines p), l. rewrite El.
    repeat split; [apply G|exact Fl|]. apply Forall_app. split; [apply G|repeat constructor; apply Ol].
  - injection Hq as <-. left. destruct (p_lines p) eqn:El; [reflexivity|]. exfalso.
    assert (p_once p = true) by (apply G; rewrite El; discriminate). congruence.
Qed.

(** [pictures fs ls ts]: [ts] are the texts of the lines [ls]. *)
Definition pictures (fs : option N) (ls : list line) (ts : list text) : Prop :=
  Forall2 (fun l t => line_text (l_bytes l) fs (l_speed l) (l_eta l) t) ls ts.

Lemma draw_ok {E} up fs ls : Forall (line_ok fs) ls -> exists ts out,
  pictures fs ls ts /\ @draw_lines E up fs ls = Ok out /\
  out = concat (map (fun lt => progress_message (snd lt) (l_final (fst lt))) (combine ls ts)) /\
  Forall (fun t => Forall printable t /\ (length t <= 73)%nat) ts.
Proof.
  induction 1 as [|l ls (B & S & Et & Bf) F IH]; [exists [], []; repeat split; constructor|].
  destruct IH as (ts & out & P & D & -> & T).
  destruct (@format_line_ok E up (l_bytes l) fs (l_speed l) (l_eta l) B S Et Bf) as (t & Ht & Lt).
  exists (t :: ts). eexists. split; [constructor; [exact Lt|exact P]|].
  split; [cbn [draw_lines]; unfold draw_line; rewrite Ht; cbn [bind]; rewrite D; reflexivity|].
  split; [reflexivity|]. constructor; [|exact T]. apply (line_text_fits _ _ _ _ _ Et Lt).
Qed.

(** While a report is going on, the current line shows the latest line. *)
Lemma shown_open width ls : forall ts above l0 rest, (73 <= width)%nat ->
  Forall (fun t => Forall printable t /\ (length t <= 73)%nat) ts -> length ls = length ts ->
  Forall (fun l => l_final l = false) ls ->
  shown width (concat (map (fun lt => progress_message (snd lt) (l_final (fst lt))) (combine ls ts)) ++ rest) (mkScreen above l0 0) =
  shown width rest (mkScreen above (last ts l0) 0).
Proof.
  induction ls as [|l ls IH]; intros [|t ts] above l0 rest W F L O; try discriminate L; [reflexivity|].
  inversion F as [|? ? [Ft Fl] F']; subst. inversion O as [|? ? Ol O']; subst.
  cbn [combine map concat fst snd]. rewrite <- app_assoc, shown_message by (exact Ft || lia). rewrite Ol.
  rewrite IH; [|exact W|exact F'|injection L as L; exact L|exact O'].
  f_equal. f_equal. destruct ts as [|t' ts]; [reflexivity|].
  cbn [last]. clear. revert t'. induction ts as [|x ts IH]; intros t'; [reflexivity|]. apply IH.
Qed.

Lemma pictures_length fs ls ts : pictures fs ls ts -> length ls = length ts.
Proof. induction 1 as [|? ? ? ? _ _ IH]; [reflexivity|]. cbn [length]. now rewrite IH. Qed.

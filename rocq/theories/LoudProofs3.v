(** Proof that -v and -q do not change the effect of a run. *)
From Coq.Strings Require Import Byte String.
From Coq Require Import List NArith ZArith Bool PeanoNat Lia.
From Verif Require Import Base BaseFacts Io Text Util CliErrors Getopts Crypto HeaderCrypto CredSpec KeyFiles Ui CliCreds Paths PathSpec PathProofs Cli Fs Commands OptSpec OptProofs CmdSpec FlowProofs QuietSpec LoudSpec LoudProofs LoudProofs2.
Import ListNotations.
Local Open Scope N_scope.

Lemma parse_once args occs free : means 0 args occs free ->
  parse_options args = let* _ := ensure (forallb (fun o => may_repeat o || (opt_count (mkMatches occs free) o <=? 1)) all_opts) COptionDuplicated in Ok (mkMatches occs free).
Proof. intros M. unfold parse_options. rewrite (reads_parse _ _ _ _ M). reflexivity. Qed.
Lemma means_fun args occs free occs' free' : means 0 args occs free -> means 0 args occs' free' -> occs = occs' /\ free = free'.
Proof. intros A B. apply reads_parse in A, B. rewrite A in B. injection B as <- <-. auto. Qed.
Lemma rising_all f : rising_from 0 f -> rising f.
Proof. intros R a b L. apply R; lia. Qed.

(** Options present in the line are those present in what remains of it. *)
Lemma soft_given f a b o : soft a = map (renum f) (soft b) -> loud o = false -> given o a <-> given o b.
Proof.
  intros E L. assert (G : forall l, given o l <-> given o (soft l)).
  { intros l. split; intros (x & I & X); exists x; (split; [|exact X]).
    - apply filter_In. split; [exact I|]. rewrite X, L. reflexivity.
    - apply filter_In in I as [I _]. exact I. }
  rewrite (G a), (G b), E. split.
  - intros (x & I & X). apply in_map_iff in I as (y & <- & I). exists y. auto.
  - intros (x & I & X). exists (renum f x). split; [apply in_map, I|exact X].
Qed.
Lemma present_given m o : opt_present m o = true <-> given o (m_occs m).
Proof.
  unfold opt_present, occs_of. split.
  - intros H. destruct (filter _ (m_occs m)) as [|x l] eqn:E; [discriminate H|].
    assert (I : In x (filter (fun x => opt_eqb (o_opt x) o) (m_occs m))) by (rewrite E; left; reflexivity).
    apply filter_In in I as [I X]. exists x. split; [exact I|]. unfold opt_eqb in X. destruct (opt_eq_dec (o_opt x) o); [assumption|discriminate X].
  - intros (x & I & X). destruct (filter _ (m_occs m)) as [|y l] eqn:E; [|reflexivity]. exfalso.
    assert (J : In x (filter (fun x => opt_eqb (o_opt x) o) (m_occs m))).
    { apply filter_In. split; [exact I|]. unfold opt_eqb. destruct (opt_eq_dec (o_opt x) o); [reflexivity|contradiction]. }
    rewrite E in J. destruct J.
Qed.

Section Main.
Variable entry_of : names.
Variable lib : crypto_lib.
Variable sha512 : bytes -> bytes.
Variable files : text -> option bytes.

Theorem main_loudness args1 args2 base a b c w status w1 :
  without_loudness args1 base -> without_loudness args2 base -> audible args1 -> audible args2 ->
  (args1 = [] <-> args2 = []) \/ b = false ->
  u_verbosity (w_ui w) = 0%Z -> u_room (w_ui w) = None -> settled base (w_ui w) ->
  main entry_of lib sha512 files args1 a b c w status w1 ->
  exists w2, main entry_of lib sha512 files args2 a b c w status w2 /\ same_effect w1 w2.
Proof.
  intros W1 W2 (o1 & f1 & M1 & V1) (o2 & f2 & M2 & V2) Em V0 R0 St (r & w' & Hrun & Hs).
  destruct (without_means _ _ W1 0%nat 0%nat) as (o1' & ob & fr & g1 & M1' & Mb & R1 & _ & _ & E1).
  destruct (without_means _ _ W2 0%nat 0%nat) as (o2' & ob' & fr' & g2 & M2' & Mb' & R2 & _ & _ & E2).
  apply rising_all in R1, R2.
  destruct (means_fun _ _ _ _ _ M1 M1') as [<- ->]. destruct (means_fun _ _ _ _ _ M2 M2') as [<- ->].
  destruct (means_fun _ _ _ _ _ Mb Mb') as [<- <-]. clear M1' M2' Mb'.
  set (m1 := mkMatches o1 fr) in *. set (m2 := mkMatches o2 fr) in *. set (mb := mkMatches ob fr) in *.
  set (ti := u_input_is_tty (w_ui w)) in *. set (to := u_output_is_tty (w_ui w)) in *.
  assert (H0 : hear ti to (w_ui w) (w_ui w)) by (unfold hear; repeat split; auto; lia).
  (* the final message *)
  assert (Fin : forall r wa ua, hear ti to (w_ui wa) ua -> forall wz,
    match r with Ok _ => status = 0 /\ wz = wa | Err CComposite => status = 1 /\ wz = wa | Err e => status = 1 /\ wz = set_ui wa (snd (print_error e (w_ui wa))) | Panic => status = 101 /\ wz = wa end ->
    exists wy, (match r : outcome cerr unit with Ok _ => status = 0 /\ wy = set_ui wa ua | Err CComposite => status = 1 /\ wy = set_ui wa ua
      | Err e => status = 1 /\ wy = set_ui (set_ui wa ua) (snd (print_error e (w_ui (set_ui wa ua)))) | Panic => status = 101 /\ wy = set_ui wa ua end) /\ same_effect wz wy).
  { intros r0 wa ua Hh wz Hz. pose proof (proj1 Hh) as Ein.
    destruct r0 as [x|e|].
    - destruct Hz as [-> ->]. eexists. split; [split; reflexivity|]. unfold same_effect. cbn. repeat split; auto.
    - assert (G : status = 1 /\ exists um, hear ti to (w_ui wz) um /\ wz = set_ui wa (w_ui wz) /\ (e = CComposite /\ um = ua \/ e <> CComposite /\ um = snd (print_error e ua))).
      { destruct e; destruct Hz as [-> ->]; (split; [reflexivity|]);
          try (match goal with |- context [print_error ?e ua] => exists (snd (print_error e ua)) end; split; [apply (hear_print_error ti to), Hh|]; split; [reflexivity|right; split; [discriminate|reflexivity]]).
        exists ua. split; [exact Hh|]. split; [destruct wa; reflexivity|left; auto]. }
      destruct G as (-> & um & Hu & Ew & G). exists (set_ui wa um). split.
      + destruct G as [[-> ->]|[NC ->]]; [split; reflexivity|]. destruct e; try contradiction; split; reflexivity.
      + rewrite Ew. unfold same_effect. cbn. repeat split; auto. apply Hu.
    - destruct Hz as [-> ->]. eexists. split; [split; reflexivity|]. unfold same_effect. cbn. repeat split; auto. }
  assert (B1 := same_once m1 mb g1 E1). assert (B2 := same_once m2 mb g2 E2).
  pose proof (parse_once _ _ _ M1) as P1. pose proof (parse_once _ _ _ M2) as P2. fold m1 in P1. fold m2 in P2. rewrite B1 in P1. rewrite B2 in P2.
  destruct (forallb (fun o => may_repeat o || (opt_count mb o <=? 1)) all_opts); cbn [ensure bind] in P1, P2.
  - (* accepted *)
    assert (L : forall args m o g, m = mkMatches o fr -> parse_options args = Ok m -> soft o = map (renum g) (soft ob) -> rising g ->
      forall s p f d u u', parse_command_line sha512 files args a b c u = (Ok (CryptStreams s p f d), u') -> p <> PromptUser \/ ti = false \/ to = false).
    { intros args m o g -> P E Rg s p f d u u' Hp. destruct (PathProofs.command_line_inv _ _ _ _ _ _ _ _ _ Hp) as (m' & P' & Pf & Hc).
      rewrite P in P'. injection P' as <-. destruct (Hc _ _ _ _ eq_refl) as (dd & _ & _ & _ & _ & _ & _ & _ & _ & Pol).
      destruct St as [St|[St|(os & fs & Ms & St)]]; [auto|auto|]. destruct (means_fun _ _ _ _ _ Ms Mb) as [-> ->]. left.
      destruct St as [K|[K|(K & Ne & Nd)]].
      - apply (soft_given g o ob OKeepInputs E eq_refl) in K. apply (present_given (mkMatches o fr)) in K. rewrite K in Pol. rewrite Pol. destruct (opt_present _ ODiscardInputs); discriminate.
      - apply (soft_given g o ob ODiscardInputs E eq_refl) in K. apply (present_given (mkMatches o fr)) in K. rewrite K in Pol. rewrite Pol. destruct (opt_present _ OKeepInputs); discriminate.
      - exfalso. destruct (_ && b); [destruct d; exact Pf|].
        apply (soft_given g o ob OGenKeypair E eq_refl) in K. rewrite <- (soft_given g o ob OEncrypt E eq_refl) in Ne. rewrite <- (soft_given g o ob ODecrypt E eq_refl) in Nd.
        destruct (some_mode o fr _ eq_refl) as [[Eq No]|(x & I & X)].
        + destruct K as (x & I & X). specialize (No x I). rewrite X in No. discriminate No.
        + destruct (get_mode (mkMatches o fr)) as [[|]| | |]; try (destruct d; exact Pf).
          * apply Ne. exists x. split; [exact I|]. destruct (o_opt x); try discriminate X; reflexivity.
          * apply Nd. exists x. split; [exact I|]. destruct (o_opt x); try discriminate X; reflexivity. }
    assert (Hl : act_hear ti to (parse_command_line sha512 files args1 a b c) (parse_command_line sha512 files args2 a b c)).
    { assert (X1 : (Z.of_N (opt_count m1 OVerbose) - Z.of_N (opt_count m1 OQuiet) = - quietness o1)%Z) by (unfold m1; rewrite !times_count; unfold quietness; lia).
      assert (X2 : (Z.of_N (opt_count m2 OVerbose) - Z.of_N (opt_count m2 OQuiet) = - quietness o2)%Z) by (unfold m2; rewrite !times_count; unfold quietness; lia).
      apply (hear_line ti to sha512 files args1 args2 m1 m2 mb g1 g2 a b c R1 R2 eq_refl eq_refl E1 E2 P1 P2 Em); [rewrite X1|rewrite X2]; lia. }
    specialize (L args1 m1 o1 g1 eq_refl P1 E1 R1).
    pose proof (hs_ui ti to _ _ Hl) as Hp.
    destruct Hrun as [(cmd & wm & Hc & Hr)|[(e & Hc & ->)|(Hc & ->)]].
    + destruct (Hp _ _ _ _ Hc H0) as (u1 & Hc2 & K1). assert (Q : forall s p f d, cmd = CryptStreams s p f d -> p <> PromptUser \/ ti = false \/ to = false).
      { intros s p f d ->. destruct Hc as [Hc _]. destruct (parse_command_line sha512 files args1 a b c (w_ui w)) as [x u'] eqn:Ep. cbn in Hc. subst x. exact (L _ _ _ _ _ _ Ep). }
      destruct (hs_run ti to entry_of lib sha512 cmd Q _ _ _ _ Hr K1) as (u2 & Hr2 & K2).
      destruct (Fin r w' u2 K2 w1 Hs) as (wy & Hy & S). exists wy. split; [|exact S]. exists r, (set_ui w' u2). split; [|exact Hy].
      left. exists cmd, (set_ui wm u1). split; [|exact Hr2]. destruct w; exact Hc2.
    + destruct (Hp _ _ _ _ Hc H0) as (u1 & Hc2 & K1). destruct (Fin (Err e) w' u1 K1 w1 Hs) as (wy & Hy & S). exists wy. split; [|exact S].
      exists (Err e), (set_ui w' u1). split; [|exact Hy]. right. left. exists e. split; [|reflexivity]. destruct w; exact Hc2.
    + destruct (Hp _ _ _ _ Hc H0) as (u1 & Hc2 & K1). destruct (Fin Panic w' u1 K1 w1 Hs) as (wy & Hy & S). exists wy. split; [|exact S].
      exists Panic, (set_ui w' u1). split; [|exact Hy]. right. right. split; [|reflexivity]. destruct w; exact Hc2.
  - (* refused *)
    assert (Hl : act_hear ti to (parse_command_line sha512 files args1 a b c) (parse_command_line sha512 files args2 a b c)).
    { intros u v H. unfold parse_command_line. rewrite P1, P2. split; [reflexivity|exact H]. }
    assert (Hf : fst (parse_command_line sha512 files args1 a b c (w_ui w)) = Err COptionDuplicated) by (unfold parse_command_line; rewrite P1; reflexivity).
    pose proof (hs_ui ti to _ _ Hl) as Hp.
    destruct Hrun as [(cmd & wm & Hc & Hr)|[(e & Hc & ->)|(Hc & ->)]].
    + destruct Hc as [Hc _]. rewrite Hf in Hc. discriminate Hc.
    + destruct (Hp _ _ _ _ Hc H0) as (u1 & Hc2 & K1). destruct (Fin (Err e) w' u1 K1 w1 Hs) as (wy & Hy & S). exists wy. split; [|exact S].
      exists (Err e), (set_ui w' u1). split; [|exact Hy]. right. left. exists e. split; [|reflexivity]. destruct w; exact Hc2.
    + destruct Hc as [Hc _]. rewrite Hf in Hc. discriminate Hc.
Qed.
End Main.

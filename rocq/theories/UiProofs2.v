(** The prompts: passwords and yes/no questions. *)
From Coq.Strings Require Import Byte String.
From Coq Require Import List NArith ZArith Bool Lia PeanoNat.
From Verif Require Import Base BaseFacts Shamir Errors Io Text TextProofs TextProofs2 Util UtilProofs CliErrors Crypto HeaderCrypto Ui UiSpec UiProofs.
Import ListNotations.
Local Open Scope N_scope.

Lemma can_read_iff u : can_read u = true <-> interactive u.
Proof.
  unfold can_read, interactive, will_print. rewrite !andb_true_iff, Z.leb_le. unfold INTERACTIVE_VERBOSITY.
  split.
  - intros [[[A B] C] D]. repeat split; try assumption. destruct (u_input u); discriminate.
  - intros (A & B & C & D). repeat split; try assumption. destruct (u_input u); [reflexivity|contradiction].
Qed.

Lemma not_interactive u : ~ interactive u -> can_read u = false.
Proof. intros H. destruct (can_read u) eqn:E; [|reflexivity]. exfalso. apply H, can_read_iff, E. Qed.

(** What stays the same. *)
Definition same_tty (u u' : ui) : Prop :=
  u_input_is_tty u' = u_input_is_tty u /\ u_output_is_tty u' = u_output_is_tty u /\ u_verbosity u' = u_verbosity u /\
  u_progress_enabled u' = u_progress_enabled u /\ (u_room u = None -> u_room u' = None) /\
  (u_input u <> None -> u_input u' <> None).

Lemma same_tty_refl u : same_tty u u.
Proof. unfold same_tty. auto 10. Qed.
Lemma same_tty_trans u v w : same_tty u v -> same_tty v w -> same_tty u w.
Proof. unfold same_tty. intros (A & B & C & D & E & F) (A' & B' & C' & D' & E' & F'). repeat split; try congruence; auto. Qed.
Lemma same_tty_interactive u v : same_tty u v -> interactive u -> interactive v.
Proof. unfold same_tty, interactive. intros (A & B & C & D & E & F) (I1 & I2 & I3 & I4). repeat split; auto; congruence || lia. Qed.

Lemma emit_cases m u r u' : emit m u = (r, u') ->
  (r = Ok tt /\ same_tty u u' /\ u_input u' = u_input u /\ u_trace u' = u_trace u ++ [Printed m]) \/
  (r = Err CIo /\ u' = u /\ u_room u <> None).
Proof.
  unfold emit. destruct (u_room u) as [[|n]|] eqn:R; intros [= <- <-].
  - right. repeat split. discriminate.
  - left. unfold same_tty. cbn. repeat split; auto. intros; congruence.
  - left. unfold same_tty. cbn. repeat split; auto.
Qed.

Lemma emit_run m u : u_room u = None -> emit m u = (Ok tt, log u (Printed m)).
Proof. unfold emit. now intros ->. Qed.

Lemma println_interactive_cases t u r u' : println_interactive t u = (r, u') ->
  (r = Ok tt /\ same_tty u u' /\ u_input u' = u_input u /\
     (u_trace u' = u_trace u ++ [Printed (MLine t)] \/ u' = u)) \/
  (r = Err CIo /\ u' = u /\ u_room u <> None).
Proof.
  unfold println_interactive. destruct (will_print u INTERACTIVE_VERBOSITY).
  - intros H. apply emit_cases in H as [(A & B & C & D)|H]; auto 10.
  - intros [= <- <-]. left. pose proof (same_tty_refl u). auto 10.
Qed.

Lemma println_interactive_run t u : interactive u -> u_room u = None -> println_interactive t u = (Ok tt, log u (Printed (MLine t))).
Proof.
  intros (_ & _ & _ & V) R. unfold println_interactive, will_print. apply Z.leb_le in V. unfold INTERACTIVE_VERBOSITY. rewrite V.
  apply emit_run, R.
Qed.

Lemma read_prompt_cases p u r u' : read_prompt p u = (r, u') ->
  same_tty u u' /\
  ((exists t s s', r = Ok t /\ u_input u = Some s /\ types s t s' /\ u_input u' = Some s' /\
      u_trace u' = u_trace u ++ [Printed (MPrompt p); Typed t]) \/
   (exists e, r = Err e /\ (u_trace u' = u_trace u \/ u_trace u' = u_trace u ++ [Printed (MPrompt p)]))).
Proof.
  unfold read_prompt. destruct (negb (can_read u)) eqn:CR.
  { intros [= <- <-]. split; [apply same_tty_refl|]. right. eexists. split; [reflexivity|]. auto. }
  apply negb_false_iff, can_read_iff in CR.
  unfold bind_act. destruct (emit (MPrompt p) u) as [re u1] eqn:E.
  apply emit_cases in E as [(-> & S1 & I1 & T1)|(-> & -> & _)].
  2: { intros [= <- <-]. split; [apply same_tty_refl|]. right. eexists. split; [reflexivity|]. auto. }
  destruct (u_input u1) as [s|] eqn:Iu.
  2: { exfalso. destruct CR as (K & _). congruence. }
  pose proof (read_chars_fuel (S (source_size s)) s [] [] ltac:(lia)) as NP.
  destruct (read_chars (S (source_size s)) s [] []) as [rr s'] eqn:RC. intros [= <- <-].
  split.
  { destruct S1 as (A & B & C & D & F & G).
    destruct rr; unfold same_tty; cbn; repeat split; auto; discriminate. }
  destruct rr as [t|e|]; [left|right|contradiction NP; reflexivity].
  - exists t, s, s'. split; [reflexivity|]. split; [congruence|]. split; [apply read_line_iff; assumption|].
    cbn. split; [reflexivity|]. rewrite T1, <- app_assoc. reflexivity.
  - exists e. split; [reflexivity|]. cbn. auto.
Qed.

Lemma read_prompt_run p u s t s' : interactive u -> u_room u = None -> u_input u = Some s -> types s t s' ->
  exists u', read_prompt p u = (Ok t, u') /\ same_tty u u' /\ u_input u' = Some s'.
Proof.
  intros I R Iu T. destruct (read_prompt p u) as [r u'] eqn:E.
  pose proof (read_prompt_cases _ _ _ _ E) as [S C].
  unfold read_prompt in E. rewrite (proj2 (can_read_iff u) I) in E. cbn [negb] in E. unfold bind_act in E.
  rewrite emit_run in E by assumption. unfold log in E at 1. cbn [u_input] in E. rewrite Iu in E.
  rewrite (proj2 (read_line_iff s t s') T) in E. injection E as <- <-. eexists. split; [reflexivity|]. split; [assumption|reflexivity].
Qed.

(** What an action adds to the history: nothing is typed in the clear, the echo is restored, only the
    [allowed] messages are printed. *)
Definition discreet (allowed : list message) (u u' : ui) : Prop :=
  exists tr, u_trace u' = u_trace u ++ tr /\ hidden true tr /\ echo_at_end true tr = true /\ incl (printed tr) allowed.

Lemma hidden_app e a b : hidden e (a ++ b) <-> hidden e a /\ hidden (echo_at_end e a) b.
Proof. revert e. induction a as [|[m|on|t] a IH]; intros e; cbn; rewrite ?IH; tauto. Qed.
Lemma echo_app e a b : echo_at_end e (a ++ b) = echo_at_end (echo_at_end e a) b.
Proof. revert e. induction a as [|[m|on|t] a IH]; intros e; cbn; rewrite ?IH; reflexivity. Qed.
Lemma printed_app a b : printed (a ++ b) = printed a ++ printed b.
Proof. induction a as [|[m|on|t] a IH]; cbn; rewrite ?IH; reflexivity. Qed.
Lemma typed_app a b : typed (a ++ b) = typed a ++ typed b.
Proof. induction a as [|[m|on|t] a IH]; cbn; rewrite ?IH; reflexivity. Qed.

Lemma discreet_refl al u u' : u_trace u' = u_trace u -> discreet al u u'.
Proof. intros E. exists []. rewrite app_nil_r. repeat split; [exact E|]. intros x []. Qed.
Lemma discreet_trans al u v w : discreet al u v -> discreet al v w -> discreet al u w.
Proof.
  intros (t1 & E1 & H1 & X1 & P1) (t2 & E2 & H2 & X2 & P2). exists (t1 ++ t2).
  split; [rewrite E2, E1; apply eq_sym, app_assoc|]. rewrite hidden_app, echo_app, printed_app, X1.
  repeat split; auto. apply incl_app; assumption.
Qed.
Lemma discreet_println al t u r u' : println_interactive t u = (r, u') -> In (MLine t) al -> discreet al u u'.
Proof.
  intros H I. apply println_interactive_cases in H as [(_ & _ & _ & [T|T])|(_ & T & _)].
  - exists [Printed (MLine t)]. repeat split; [exact T|]. intros x [<-|[]]. exact I.
  - subst. now apply discreet_refl.
  - subst. now apply discreet_refl.
Qed.

Lemma read_password_cases p u r u' : read_password p u = (r, u') ->
  same_tty u u' /\ discreet [MPrompt p; MLine []] u u' /\ r <> Panic /\
  (forall t, r = Ok t -> exists s s', u_input u = Some s /\ types s t s' /\ u_input u' = Some s').
Proof.
  unfold read_password. destruct (negb (can_read u)) eqn:CR.
  { intros [= <- <-]. repeat split; try apply same_tty_refl; try discriminate. now apply discreet_refl. }
  apply negb_false_iff, can_read_iff in CR.
  cbv beta delta [bind_act set_stdin_echo lift]. cbv beta iota.
  destruct (read_prompt p (log u (Echo false))) as [rr u1] eqn:RP.
  destruct (read_prompt_cases _ _ _ _ RP) as [S1 C].
  destruct (println_interactive [] (log u1 (Echo true))) as [rp u2] eqn:PL.
  intros H.
  assert (same_tty u u1) as S0 by exact S1.
  pose proof (println_interactive_cases _ _ _ _ PL) as D.
  assert (u2 = u' /\ same_tty u u' /\ u_input u' = u_input u1 /\ (r = Err CIo \/ r = rr) /\
          (u_trace u' = u_trace u1 ++ [Echo true] \/ u_trace u' = u_trace u1 ++ [Echo true; Printed (MLine [])])) as (<- & S2 & I2 & R2 & T2).
  { destruct D as [(-> & S & I & T)|(-> & -> & _)]; injection H as <- <-.
    - split; [reflexivity|]. split; [eapply same_tty_trans; [exact S0|exact S]|]. split; [exact I|]. split; [auto|].
      destruct T as [T| ->]; [right; rewrite T; cbn; now rewrite <- app_assoc|left; reflexivity].
    - split; [reflexivity|]. split; [exact S0|]. split; [reflexivity|]. split; [auto|]. left. reflexivity. }
  split; [exact S2|]. split.
  { set (tail := fun n : nat => match n with O => [Echo true] | _ => [Echo true; Printed (MLine [])] end).
    assert (exists n, u_trace u2 = u_trace u1 ++ tail n) as (n & Tn) by (destruct T2; [exists O|exists 1%nat]; assumption).
    assert (incl (printed (tail n)) [MPrompt p; MLine []]) as Pn.
    { destruct n; cbn; intros x []; [subst; auto|contradiction]. right; left; reflexivity. }
    assert (forall e, hidden e (tail n) /\ echo_at_end e (tail n) = true) as Hn by (intros e; destruct n; cbn; auto).
    destruct C as [(t & s & s' & _ & _ & _ & _ & T1)|(e & _ & [T1|T1])].
    - exists ([Echo false; Printed (MPrompt p); Typed t] ++ tail n).
      split; [rewrite Tn, T1; cbn; rewrite <- !app_assoc; reflexivity|].
      cbn [hidden echo_at_end printed app]. repeat split; try apply Hn. intros x [<-|I]; [left; reflexivity|exact (Pn x I)].
    - exists ([Echo false] ++ tail n). split; [rewrite Tn, T1; cbn; rewrite <- !app_assoc; reflexivity|].
      cbn [hidden echo_at_end printed app]. repeat split; try apply Hn. exact Pn.
    - exists ([Echo false; Printed (MPrompt p)] ++ tail n).
      split; [rewrite Tn, T1; cbn; rewrite <- !app_assoc; reflexivity|].
      cbn [hidden echo_at_end printed app]. repeat split; try apply Hn. intros x [<-|I]; [left; reflexivity|exact (Pn x I)]. }
  split.
  { destruct R2 as [->| ->]; [discriminate|]. destruct C as [(t & s & s' & -> & _)|(e & -> & _)]; discriminate. }
  intros t ->. destruct R2 as [R2|R2]; [discriminate R2|]. subst rr.
  destruct C as [(t0 & s & s' & E & Iu & T & I' & _)|(e & E & _)]; [|discriminate E].
  injection E as <-. exists s, s'. split; [exact Iu|]. split; [exact T|]. congruence.
Qed.

Lemma read_password_run p u s t s' : interactive u -> u_room u = None -> u_input u = Some s -> types s t s' ->
  exists u', read_password p u = (Ok t, u') /\ same_tty u u' /\ u_input u' = Some s'.
Proof.
  intros I R Iu T. destruct (read_password p u) as [r u'] eqn:E.
  unfold read_password in E. rewrite (proj2 (can_read_iff u) I) in E. cbn [negb] in E.
  cbv beta delta [bind_act set_stdin_echo lift] in E. cbv beta iota in E.
  destruct (read_prompt_run p (log u (Echo false)) s t s' I R Iu T) as (u1 & E1 & S1 & I1).
  rewrite E1 in E. assert (same_tty u u1) as S0 by exact S1.
  assert (u_room u1 = None) as R1 by (destruct S0 as (_ & _ & _ & _ & K & _); auto).
  pose proof (same_tty_interactive _ _ S0 I) as II1.
  rewrite println_interactive_run in E by assumption. injection E as <- <-.
  eexists. split; [reflexivity|]. split; [exact S0|exact I1].
Qed.

(** ** The password dialogue *)

Definition password_messages (msg : text) : list message :=
  [MPrompt msg; MLine []; MLine (lit "Password can not be empty, try again."); MPrompt (lit "Confirm password: ");
   MLine (lit "Passwords don't match, try again.")].

Lemma discreet_incl al al' u u' : incl al al' -> discreet al u u' -> discreet al' u u'.
Proof. intros I (tr & A & B & C & D). exists tr. repeat split; auto. eapply incl_tran; eassumption. Qed.

Lemma same_tty_size u u' s s' : u_input u = Some s -> u_input u' = Some s' -> (source_size s' < source_size s)%nat ->
  (input_size u' < input_size u)%nat.
Proof. unfold input_size. now intros -> ->. Qed.

Lemma password_loop_cases d msg fuel : forall u r u', password_loop fuel d msg u = (r, u') ->
  discreet (password_messages msg) u u' /\
  ((input_size u < fuel)%nat -> r <> Panic) /\
  (forall c, r = Ok c -> exists s rs p s', u_input u = Some s /\ replies s rs s' /\ accepts (is_encrypt d) rs p /\
     c = Password (utf8 p) /\ u_input u' = Some s').
Proof.
  induction fuel as [|fuel IH]; intros u r u' H.
  { injection H as <- <-. split; [now apply discreet_refl|]. split; [lia|discriminate]. }
  assert (incl [MPrompt msg; MLine []] (password_messages msg)) as In1 by (intros x [<-|[<-|[]]]; cbn; auto).
  assert (incl [MPrompt (lit "Confirm password: "); MLine []] (password_messages msg)) as In2
    by (intros x [<-|[<-|[]]]; unfold password_messages; cbn [In]; auto).
  cbn [password_loop] in H. unfold bind_act at 1 in H.
  destruct (read_password msg u) as [rp u1] eqn:RP.
  destruct (read_password_cases _ _ _ _ RP) as (S1 & D1 & NP1 & K1). apply (discreet_incl _ _ _ _ In1) in D1.
  destruct rp as [p|e|]; [|injection H as <- <-; split; [exact D1|]; split; discriminate|contradiction].
  destruct (K1 p eq_refl) as (s & s1 & Iu & T1 & I1). pose proof (types_size _ _ _ T1) as Z1.
  pose proof (same_tty_size _ _ _ _ Iu I1 Z1) as Q1.
  destruct (text_eqb p []) eqn:Ep.
  { apply text_eqb_eq in Ep. subst p. unfold bind_act in H.
    destruct (println_interactive _ u1) as [rl u2] eqn:PL.
    pose proof (discreet_println (password_messages msg) _ _ _ _ PL ltac:(unfold password_messages; cbn [In]; auto)) as D2.
    apply println_interactive_cases in PL as [(-> & S2 & I2 & _)|(-> & -> & _)].
    2: { injection H as <- <-. split; [exact D1|]. split; discriminate. }
    destruct (IH _ _ _ H) as (D3 & NP3 & K3). split; [eapply discreet_trans; [exact D1|eapply discreet_trans; eassumption]|].
    split; [intros F; apply NP3; unfold input_size in *; rewrite I2; lia|].
    intros c ->. destruct (K3 c eq_refl) as (s2 & rs & q & s' & Iu2 & R2 & A2 & -> & I').
    assert (s2 = s1) as -> by congruence.
    exists s, ([] :: rs), q, s'. split; [exact Iu|]. split; [econstructor; eassumption|]. split; [constructor; exact A2|]. auto. }
  assert (p <> []) as Np by (intros ->; discriminate Ep).
  unfold bind_act at 1 in H.
  destruct (is_encrypt d) eqn:Ed.
  - unfold bind_act at 1 in H.
    destruct (read_password _ u1) as [rq u2] eqn:RQ.
    destruct (read_password_cases _ _ _ _ RQ) as (S2 & D2 & NP2 & K2). apply (discreet_incl _ _ _ _ In2) in D2.
    pose proof (discreet_trans _ _ _ _ D1 D2) as D12.
    destruct rq as [q|e|]; [|injection H as <- <-; split; [exact D12|]; split; discriminate|contradiction].
    destruct (K2 q eq_refl) as (s1' & s2 & Iu1 & T2 & I2). assert (s1' = s1) as -> by congruence.
    pose proof (types_size _ _ _ T2) as Z2.
    cbv beta iota delta [ret] in H.
    destruct (text_eqb q p) eqn:Eq.
    + apply text_eqb_eq in Eq. subst q. unfold bind_act in H.
      destruct (println_interactive [] u2) as [rl u3] eqn:PL.
      pose proof (discreet_println (password_messages msg) _ _ _ _ PL ltac:(unfold password_messages; cbn [In]; auto)) as D3.
      apply println_interactive_cases in PL as [(-> & S3 & I3 & _)|(-> & -> & _)].
      2: { injection H as <- <-. split; [exact D12|]. split; discriminate. }
      injection H as <- <-. split; [eapply discreet_trans; eassumption|]. split; [discriminate|].
      intros c [= <-]. exists s, [p; p], p, s2. split; [exact Iu|].
      split; [econstructor; [eassumption|econstructor; [eassumption|constructor]]|].
      split; [constructor; exact Np|]. split; [reflexivity|congruence].
    + unfold bind_act in H. destruct (println_interactive _ u2) as [rl u3] eqn:PL.
      pose proof (discreet_println (password_messages msg) _ _ _ _ PL ltac:(unfold password_messages; cbn [In]; auto 10)) as D3.
      apply println_interactive_cases in PL as [(-> & S3 & I3 & _)|(-> & -> & _)].
      2: { injection H as <- <-. split; [exact D12|]. split; discriminate. }
      destruct (IH _ _ _ H) as (D4 & NP4 & K4).
      split; [eapply discreet_trans; [exact D12|eapply discreet_trans; eassumption]|].
      split; [intros F; apply NP4; unfold input_size in *; rewrite I3, I2; rewrite Iu in F; lia|].
      intros c ->. destruct (K4 c eq_refl) as (s3 & rs & q' & s' & Iu3 & R3 & A3 & -> & I').
      assert (s3 = s2) as -> by congruence.
      exists s, (p :: q :: rs), q', s'. split; [exact Iu|].
      split; [econstructor; [eassumption|econstructor; eassumption]|].
      split; [constructor; [exact Np| |exact A3]|auto]. intros ->.
      assert (text_eqb p p = true) as X by now apply text_eqb_eq. congruence.
  - cbv beta iota delta [ret] in H. unfold bind_act in H.
    destruct (println_interactive [] u1) as [rl u3] eqn:PL.
    pose proof (discreet_println (password_messages msg) _ _ _ _ PL ltac:(unfold password_messages; cbn [In]; auto)) as D3.
    apply println_interactive_cases in PL as [(-> & S3 & I3 & _)|(-> & -> & _)].
    2: { injection H as <- <-. split; [exact D1|]. split; discriminate. }
    injection H as <- <-. split; [eapply discreet_trans; eassumption|]. split; [discriminate|].
    intros c [= <-]. exists s, [p], p, s1. split; [exact Iu|].
    split; [econstructor; [eassumption|constructor]|]. split; [constructor; exact Np|]. split; [reflexivity|congruence].
Qed.

Lemma replies_cons s r rs s' : replies s (r :: rs) s' -> exists s1, types s r s1 /\ replies s1 rs s'.
Proof. intros H. inversion H; subst. eauto. Qed.

Lemma text_eqb_refl t : text_eqb t t = true.
Proof. now apply text_eqb_eq. Qed.
Lemma text_eqb_neq a b : a <> b -> text_eqb a b = false.
Proof. intros H. destruct (text_eqb a b) eqn:E; [apply text_eqb_eq in E; contradiction|reflexivity]. Qed.

Lemma log_interactive u e : interactive u -> interactive (log u e).
Proof. intros H. exact H. Qed.

Lemma password_loop_run d msg rs p : accepts (is_encrypt d) rs p -> forall fuel u s s',
  interactive u -> u_room u = None -> u_input u = Some s -> replies s rs s' -> (source_size s < fuel)%nat ->
  exists u', password_loop fuel d msg u = (Ok (Password (utf8 p)), u') /\ u_input u' = Some s'.
Proof.
  remember (is_encrypt d) as enc eqn:Ed.
  induction 1 as [p Np|p Np|enc rs p A IH|q q' rs p Nq Nqq A IH]; intros fuel u s s' I R Iu Rs F;
    (destruct fuel as [|fuel]; [lia|]); cbn [password_loop]; unfold bind_act at 1;
    apply replies_cons in Rs as (s1 & T1 & Rs);
    destruct (read_password_run msg u s _ s1 I R Iu T1) as (u1 & E1 & S1 & I1); rewrite E1;
    assert (u_room u1 = None) as R1 by (destruct S1 as (_ & _ & _ & _ & K & _); auto);
    pose proof (same_tty_interactive _ _ S1 I) as II1; pose proof (types_size _ _ _ T1) as Z1.
  - rewrite text_eqb_neq by exact Np. rewrite <- Ed. unfold bind_act, ret. rewrite println_interactive_run by assumption.
    inversion Rs; subst. eexists. split; [reflexivity|exact I1].
  - rewrite text_eqb_neq by exact Np. rewrite <- Ed. unfold bind_act at 1. unfold bind_act at 1.
    apply replies_cons in Rs as (s2 & T2 & Rs).
    destruct (read_password_run (lit "Confirm password: ") u1 s1 _ s2 II1 R1 I1 T2) as (u2 & E2 & S2 & I2). rewrite E2.
    assert (u_room u2 = None) as R2 by (destruct S2 as (_ & _ & _ & _ & K & _); auto).
    pose proof (same_tty_interactive _ _ S2 II1) as II2.
    unfold bind_act, ret. rewrite text_eqb_refl. rewrite println_interactive_run by assumption.
    inversion Rs; subst. eexists. split; [reflexivity|exact I2].
  - rewrite text_eqb_refl. unfold bind_act. rewrite println_interactive_run by assumption.
    eapply IH; [exact Ed| | | |exact Rs|lia]; assumption.
  - rewrite text_eqb_neq by exact Nq. rewrite <- Ed. unfold bind_act at 1. unfold bind_act at 1.
    apply replies_cons in Rs as (s2 & T2 & Rs).
    destruct (read_password_run (lit "Confirm password: ") u1 s1 _ s2 II1 R1 I1 T2) as (u2 & E2 & S2 & I2). rewrite E2.
    assert (u_room u2 = None) as R2 by (destruct S2 as (_ & _ & _ & _ & K & _); auto).
    pose proof (same_tty_interactive _ _ S2 II1) as II2. pose proof (types_size _ _ _ T2) as Z2.
    unfold bind_act, ret. rewrite text_eqb_neq by exact Nqq. rewrite println_interactive_run by assumption.
    eapply IH; [exact Ed| | | |exact Rs|lia]; assumption.
Qed.

(** ** Yes or no *)

Lemma lower_inv c l : 97 <= l <= 122 -> ascii_lower c = l -> c = l \/ c = l - 32.
Proof.
  intros L. unfold ascii_lower. destruct ((65 <=? c) && (c <=? 90)) eqn:E; [|auto].
  intros <-. right. lia.
Qed.

Lemma yes_iff r : (text_eqb (map ascii_lower r) (lit "y") || text_eqb (map ascii_lower r) (lit "yes")) = true <-> In r yes_words.
Proof.
  split.
  - intros H. apply orb_true_iff in H as [H|H]; apply text_eqb_eq in H.
    + change (lit "y") with [121] in H. destruct r as [|a [|]]; try discriminate H. injection H as H.
      apply lower_inv in H as [->| ->]; [|cbn; auto|lia]. cbn; auto.
    + change (lit "yes") with [121; 101; 115] in H. destruct r as [|a [|b [|c [|]]]]; try discriminate H. injection H as H1 H2 H3.
      apply lower_inv in H1; [|lia]. apply lower_inv in H2; [|lia]. apply lower_inv in H3; [|lia].
      destruct H1 as [->| ->], H2 as [->| ->], H3 as [->| ->]; cbn; auto 20.
  - cbn [yes_words map In]. intros H. repeat destruct H as [<-|H]; try reflexivity. destruct H.
Qed.

Lemma no_iff r : (text_eqb (map ascii_lower r) (lit "n") || text_eqb (map ascii_lower r) (lit "no")) = true <-> In r no_words.
Proof.
  split.
  - intros H. apply orb_true_iff in H as [H|H]; apply text_eqb_eq in H.
    + change (lit "n") with [110] in H. destruct r as [|a [|]]; try discriminate H. injection H as H.
      apply lower_inv in H as [->| ->]; [cbn; auto|cbn; auto|lia].
    + change (lit "no") with [110; 111] in H. destruct r as [|a [|b [|]]]; try discriminate H. injection H as H1 H2.
      apply lower_inv in H1; [|lia]. apply lower_inv in H2; [|lia].
      destruct H1 as [->| ->], H2 as [->| ->]; cbn; auto 20.
  - cbn [no_words map In]. intros H. repeat destruct H as [<-|H]; try reflexivity. destruct H.
Qed.

Lemma prompt_loop_cases p def fuel : forall u r u', prompt_loop fuel p def u = (r, u') ->
  same_tty u u' /\ ((input_size u < fuel)%nat -> r <> Panic) /\
  (forall b, r = Ok b -> exists s rs s', u_input u = Some s /\ replies s rs s' /\ answers def rs b /\ u_input u' = Some s').
Proof.
  induction fuel as [|fuel IH]; intros u r u' H.
  { injection H as <- <-. split; [apply same_tty_refl|]. split; [lia|discriminate]. }
  cbn [prompt_loop] in H. unfold bind_act at 1 in H.
  destruct (read_prompt p u) as [rp u1] eqn:RP.
  destruct (read_prompt_cases _ _ _ _ RP) as (S1 & [(t & s & s1 & -> & Iu & T1 & I1 & _)|(e & -> & _)]).
  2: { injection H as <- <-. split; [exact S1|]. split; discriminate. }
  pose proof (types_size _ _ _ T1) as Z1.
  pose proof (yes_iff t) as Y. destruct (text_eqb (map ascii_lower t) (lit "y") || _) eqn:EY.
  { injection H as <- <-. split; [exact S1|]. split; [discriminate|]. intros b [= <-].
    exists s, [t], s1. split; [exact Iu|]. split; [econstructor; [eassumption|constructor]|]. split; [|exact I1]. constructor. now apply Y. }
  pose proof (no_iff t) as Nn. destruct (text_eqb (map ascii_lower t) (lit "n") || _) eqn:EN.
  { injection H as <- <-. split; [exact S1|]. split; [discriminate|]. intros b [= <-].
    exists s, [t], s1. split; [exact Iu|]. split; [econstructor; [eassumption|constructor]|]. split; [|exact I1]. apply ans_no. now apply Nn. }
  destruct (text_eqb (map ascii_lower t) []) eqn:E0.
  { injection H as <- <-. split; [exact S1|]. split; [discriminate|]. intros b [= <-].
    apply text_eqb_eq in E0. destruct t; [|discriminate E0].
    exists s, [[]], s1. split; [exact Iu|]. split; [econstructor; [eassumption|constructor]|]. split; [|exact I1]. constructor. }
  unfold bind_act in H. destruct (println_interactive _ u1) as [rl u2] eqn:PL.
  apply println_interactive_cases in PL as [(-> & S2 & I2 & _)|(-> & -> & _)].
  2: { injection H as <- <-. split; [exact S1|]. split; discriminate. }
  destruct (IH _ _ _ H) as (S3 & NP3 & K3).
  split; [eapply same_tty_trans; [exact S1|eapply same_tty_trans; eassumption]|].
  split; [intros F; apply NP3; unfold input_size in *; rewrite I2, I1; rewrite Iu in F; lia|].
  intros b ->. destruct (K3 b eq_refl) as (s2 & rs & s' & Iu2 & R2 & A2 & I').
  assert (s2 = s1) as -> by congruence.
  exists s, (t :: rs), s'. split; [exact Iu|]. split; [econstructor; eassumption|]. split; [|exact I'].
  constructor; [intros ->; discriminate E0|intros K; apply Y in K; discriminate K|intros K; apply Nn in K; discriminate K|exact A2].
Qed.

Lemma prompt_loop_run p def rs b : answers def rs b -> forall fuel u s s',
  interactive u -> u_room u = None -> u_input u = Some s -> replies s rs s' -> (source_size s < fuel)%nat ->
  exists u', prompt_loop fuel p def u = (Ok b, u') /\ u_input u' = Some s' /\ same_tty u u'.
Proof.
  induction 1 as [r Y|r Nn| |r rs b N0 NY NN A IH]; intros fuel u s s' I R Iu Rs F;
    (destruct fuel as [|fuel]; [lia|]); cbn [prompt_loop]; unfold bind_act at 1;
    apply replies_cons in Rs as (s1 & T1 & Rs);
    destruct (read_prompt_run p u s _ s1 I R Iu T1) as (u1 & E1 & S1 & I1); rewrite E1;
    assert (u_room u1 = None) as R1 by (destruct S1 as (_ & _ & _ & _ & K & _); auto);
    pose proof (same_tty_interactive _ _ S1 I) as II1; pose proof (types_size _ _ _ T1) as Z1.
  - rewrite (proj2 (yes_iff r) Y). inversion Rs; subst. eexists. split; [reflexivity|]. auto.
  - destruct (_ || text_eqb _ (lit "yes")) eqn:EY.
    { exfalso. apply yes_iff in EY. cbn [no_words map In] in Nn. repeat destruct Nn as [<-|Nn]; try destruct Nn; 
      cbn in EY; repeat destruct EY as [EY|EY]; discriminate || contradiction. }
    rewrite (proj2 (no_iff r) Nn). inversion Rs; subst. eexists. split; [reflexivity|]. auto.
  - cbn. inversion Rs; subst. eexists. split; [reflexivity|]. auto.
  - destruct (_ || text_eqb _ (lit "yes")) eqn:EY; [exfalso; apply NY, yes_iff, EY|].
    destruct (_ || text_eqb _ (lit "no")) eqn:EN; [exfalso; apply NN, no_iff, EN|].
    rewrite text_eqb_neq by (destruct r; [contradiction|discriminate]).
    unfold bind_act. rewrite println_interactive_run by assumption.
    destruct (IH fuel (log u1 (Printed (MLine (lit "Invalid input, please enter 'y' or 'n'.")))) s1 s') as (u' & E' & I' & S'); try assumption; [lia|].
    exists u'. split; [exact E'|]. split; [exact I'|]. eapply same_tty_trans; [exact S1|exact S'].
Qed.

(** Proofs about whole runs of encryption and decryption. *)
From Coq.Strings Require Import Byte String.
From Coq Require Import List NArith ZArith Bool PeanoNat Lia.
From Verif Require Import Base BaseFacts Shamir Errors Io HeaderIoSpec StreamSpec Text Util CliErrors Crypto HeaderCrypto CredSpec FileCrypto Ui UiSpec UiProofs UiProofs2 Paths Cli Fs Commands FsSpec FsProofs ConvProofs FsProofs2 FsProofs3.
Import ListNotations.
Local Open Scope N_scope.

(** ** The history of the terminal only grows *)

Definition later (u u' : ui) : Prop := exists l, u_trace u' = u_trace u ++ l.
Lemma later_refl u : later u u.
Proof. exists []. rewrite app_nil_r. reflexivity. Qed.
Lemma later_trans u v w : later u v -> later v w -> later u w.
Proof. intros [a A] [b B]. exists (a ++ b). rewrite B, A, app_assoc. reflexivity. Qed.
Definition speaks {A} (m : act A) : Prop := forall u, later u (snd (m u)).
Lemma speaks_ignore {A} (m : act A) : speaks m -> speaks (ignore m).
Proof. intros M u. unfold ignore. specialize (M u). destruct (m u) as [[a| |] u1]; exact M. Qed.
Lemma speaks_emit m : speaks (emit m).
Proof. intros u. unfold emit, later. destruct (u_room u) as [[|n]|]; cbn; [exists []; rewrite app_nil_r; reflexivity|eauto..]. Qed.
Lemma speaks_println v t : speaks (ui_println v t).
Proof. intros u. unfold ui_println. destruct (will_print u v); [apply speaks_emit|apply later_refl]. Qed.
Lemma speaks_print_error e : speaks (print_error e).
Proof. intros u. unfold print_error. destruct (will_print u _); [apply speaks_emit|apply later_refl]. Qed.
Lemma speaks_progress n u : later u (progress_lines n u).
Proof.
  revert u. induction n as [|n IH]; intros u; [apply later_refl|]. cbn [progress_lines]. eapply later_trans; [|apply IH].
  unfold println_progress. destruct (u_progress_enabled u); [destruct (will_print u 0); [apply speaks_emit|]|]; apply later_refl.
Qed.

Definition iolater {A} (m : io A) : Prop := forall w r w', m w r w' -> later (w_ui w) (w_ui w').
Lemma iol_ret {A} (a : A) : iolater (io_ret a).
Proof. intros w r w' [_ ->]. apply later_refl. Qed.
Lemma iol_lift {A} (x : outcome cerr A) : iolater (io_lift x).
Proof. intros w r w' [_ ->]. apply later_refl. Qed.
Lemma iol_ui {A} (m : act A) : speaks m -> iolater (io_ui m).
Proof. intros M w r w' [_ ->]. apply M. Qed.
Lemma iol_bind {A B} (m : io A) (f : A -> io B) : iolater m -> (forall a, iolater (f a)) -> iolater (io_bind m f).
Proof.
  intros M F w r w' [(a & w1 & H1 & H2)|[(e & H & _)|(H & _)]]; [|eapply M, H..]. eapply later_trans; [eapply M, H1|eapply F, H2].
Qed.
Lemma iol_try {A} (m : io A) : iolater m -> iolater (io_try m).
Proof. intros M w r w' [(x & _ & H & _)|(H & _)]; eapply M, H. Qed.
Lemma write_out_ui wr d w : w_ui (write_out wr d w) = w_ui w.
Proof.
  destruct wr as [i|]; [|reflexivity]. cbn [write_out]. destruct (f_nodes (w_fs w) i) as [n|]; [|reflexivity]. destruct (n_regular n); [|reflexivity].
  generalize (seq 1 (length d)). intros l. revert w. induction l as [|k l IH]; intros w; [reflexivity|]. cbn [fold_left]. rewrite IH. reflexivity.
Qed.

Section WithEnvironment.
Variable entry_of : names.
Variable lib : crypto_lib.
Hypothesis Hlib : lib_ok lib.

Lemma iol_open_file p : iolater (open_file entry_of p).
Proof.
  apply iol_bind; [intros w r w' [-> _]; apply later_refl|]. intros rd. apply iol_bind; [intros w r w' [-> _]; apply later_refl|]. intros md.
  apply iol_bind; [apply iol_lift|]. intros _. apply iol_ret.
Qed.
Lemma iol_open_input i force : iolater (open_input entry_of i force).
Proof.
  destruct i as [p|p|]; cbn [open_input].
  - apply iol_bind; [apply iol_open_file|]. intros [rd md]. do 3 (apply iol_bind; [apply iol_lift|]; intros _). apply iol_ret.
  - apply iol_bind; [apply iol_open_file|]. intros [rd md]. apply iol_ret.
  - intros w r w' H. unfold open_stdin in H. destruct (u_input (w_ui w)); destruct H as [_ ->]; exists []; rewrite app_nil_r; reflexivity.
Qed.
Lemma iol_open_output o force : iolater (open_output entry_of o force).
Proof.
  destruct o as [q|]; cbn [open_output]; [|apply iol_ret]. destruct force; intros w r w' H.
  - destruct H as [(_ & -> & _)|(s & t & i & _ & _ & _ & [(_ & _ & ->)|(n & _ & _ & ->)])]; [apply later_refl|apply later_refl|destruct (n_regular n); apply later_refl].
  - destruct H as [(_ & -> & _)|(s & i & _ & _ & _ & _ & ->)]; apply later_refl.
Qed.
Lemma iol_convert d rd wr : iolater (convert entry_of lib d rd wr).
Proof.
  intros w r w' (er & src & room & fl & r0 & snk & k & _ & _ & _ & _ & [(_ & ->)|(_ & _ & out & _ & ->)]); cbn [set_ui w_ui]; rewrite write_out_ui; apply speaks_progress.
Qed.
Lemma iol_remove_cb p force : iolater (remove_cb entry_of p force).
Proof.
  apply iol_bind.
  - apply iol_try. intros w r w' H. unfold remove_file in H. destruct (entry_of p) as [s|]; [|destruct H as [_ ->]; apply later_refl].
    destruct (f_entries (w_fs w) s) as [[]|]; [destruct H as [(_ & _ & ->)|[_ ->]]; apply later_refl..|destruct H as [_ ->]; apply later_refl|destruct H as [_ ->]; apply later_refl].
  - intros [[]|e|]; [apply iol_ret| |apply iol_ret]. destruct force; [apply iol_ret|]. apply iol_ui, speaks_ignore, speaks_print_error.
Qed.
Lemma iol_step {k n} st force d : iolater (step entry_of lib k n st force d).
Proof.
  apply iol_bind.
  - apply iol_bind.
    + apply iol_try. apply iol_bind; [apply iol_ui, speaks_ignore, speaks_println|]. intros _. apply iol_bind; [apply iol_lift|]. intros o.
      apply iol_bind; [apply iol_open_input|]. intros rd. apply iol_bind; [apply iol_open_output|]. intros wr. apply iol_ret.
    + intros [[[rd wr] cb]|e|]; [|apply iol_ret|apply iol_lift]. apply iol_bind; [apply iol_try, iol_convert|]. intros r. apply iol_ret.
  - intros [[[]|e|] cb]; [apply iol_ret| |apply iol_lift]. apply iol_bind; [apply iol_ui, speaks_ignore, speaks_print_error|]. intros _.
    apply iol_bind; [destruct cb; [apply iol_remove_cb|apply iol_ret]|]. intros _. apply iol_ret.
Qed.
Lemma iol_process {k n} l force d : iolater (process entry_of lib k n l force d).
Proof.
  revert k. induction l as [|st l IH]; intros k; [apply iol_ret|]. cbn [process]. apply iol_bind; [apply iol_step|]. intros [c e].
  apply iol_bind; [apply iol_ui, speaks_println|]. intros _. apply iol_bind; [apply IH|]. intros [c' e']. apply iol_ret.
Qed.
Lemma iol_remove_all l force : iolater (remove_all entry_of l force).
Proof. induction l as [|p l IH]; [apply iol_ret|]. cbn [remove_all]. apply iol_bind; [apply iol_remove_cb|]. intros _. exact IH. Qed.
End WithEnvironment.

(** ** The question *)

Lemma prompt_loop_trace p fuel : forall u b u', prompt_loop fuel p false u = (Ok b, u') ->
  exists before reply, u_trace u' = u_trace u ++ before ++ [Printed (MPrompt p); Typed reply] /\ (b = true -> In reply yes_words).
Proof.
  induction fuel as [|fuel IH]; intros u b u' H; [discriminate H|].
  cbn [prompt_loop] in H. unfold bind_act at 1 in H.
  destruct (read_prompt p u) as [rp u1] eqn:RP.
  destruct (read_prompt_cases _ _ _ _ RP) as (S1 & [(t & s & s1 & -> & Iu & T1 & I1 & Tr)|(e & -> & _)]); [|discriminate H].
  destruct (text_eqb (map ascii_lower t) (lit "y") || _) eqn:EY.
  { injection H as <- <-. exists [], t. split; [exact Tr|]. intros _. apply yes_iff, EY. }
  destruct (text_eqb (map ascii_lower t) (lit "n") || _).
  { injection H as <- <-. exists [], t. split; [exact Tr|]. discriminate. }
  destruct (text_eqb (map ascii_lower t) []).
  { injection H as <- <-. exists [], t. split; [exact Tr|]. discriminate. }
  unfold bind_act in H. destruct (println_interactive _ u1) as [rl u2] eqn:PL.
  apply println_interactive_cases in PL as [(-> & _ & _ & T2)|(-> & -> & _)]; [|discriminate H].
  destruct (IH _ _ _ H) as (before & reply & E & Y).
  assert (exists x, u_trace u2 = u_trace u1 ++ x) as [x Ex] by (destruct T2 as [T2| ->]; [eauto|exists []; rewrite app_nil_r; reflexivity]).
  exists ([Printed (MPrompt p); Typed t] ++ x ++ before), reply. split; [|exact Y]. rewrite E, Ex, Tr, <- !app_assoc. reflexivity.
Qed.
Lemma question_yes u u' : read_prompt_bool 0 question false u = (Ok (Some true), u') ->
  exists before reply, u_trace u' = u_trace u ++ before ++ [Printed (MPrompt (lit "Remove original file(s)? [y/N]: ")); Typed reply] /\ In reply yes_words.
Proof.
  unfold read_prompt_bool. destruct (_ || _); [discriminate|]. unfold bind_act. destruct (prompt_loop _ _ false u) as [[b|e|] u1] eqn:E; intros [= -> <-].
  apply prompt_loop_trace in E as (before & reply & E & Y). exists before, reply. split; [exact E|]. apply Y. reflexivity.
Qed.

(** What can go wrong with it. *)
Definition tty_error (e : cerr) : Prop := In e [CIo; CEof; CNonUtf8; CCannotPrompt].
Lemma next_byte_err s e s' : next_byte s = (Some (Err e), s') -> e = CIo.
Proof. induction s as [|[[|b d]| |] s IH]; cbn; intros H; try discriminate H; [auto|]. injection H as <- <-. reflexivity. Qed.
Lemma read_chars_err fuel : forall s cb res e s', read_chars fuel s cb res = (Err e, s') -> tty_error e.
Proof.
  unfold tty_error. induction fuel as [|fuel IH]; intros s cb res e s' H; [discriminate H|]. cbn [read_chars] in H.
  destruct (next_byte s) as [[[b|e'|]|] s1] eqn:E; try discriminate H.
  - cbv zeta in H. destruct (from_utf8 _); [destruct (text_eqb _ _); [discriminate H|eapply IH, H]|eapply IH, H|]. injection H as <- <-. cbn. auto.
  - injection H as <- <-. apply next_byte_err in E. cbn. auto.
  - injection H as <- <-. cbn. auto.
Qed.
Lemma emit_err m u e u' : emit m u = (Err e, u') -> e = CIo.
Proof. intros H. apply emit_cases in H as [(E & _)|(E & _)]; [discriminate E|]. injection E as ->. reflexivity. Qed.
Lemma read_prompt_err p u e u' : read_prompt p u = (Err e, u') -> tty_error e.
Proof.
  unfold read_prompt. destruct (negb (can_read u)); [intros [= <- <-]; unfold tty_error; cbn; auto|]. unfold bind_act.
  destruct (emit (MPrompt p) u) as [[[]|e0|] u1] eqn:E.
  - destruct (u_input u1) as [s|]; [|discriminate]. destruct (read_chars _ s [] []) as [rr s'] eqn:RC. intros [= -> <-]. eapply read_chars_err, RC.
  - intros [= <- <-]. apply emit_err in E. unfold tty_error. cbn. auto.
  - discriminate.
Qed.
Lemma prompt_loop_err p def fuel : forall u e u', prompt_loop fuel p def u = (Err e, u') -> tty_error e.
Proof.
  induction fuel as [|fuel IH]; intros u e u' H; [discriminate H|]. cbn [prompt_loop] in H. unfold bind_act at 1 in H.
  destruct (read_prompt p u) as [[t|e0|] u1] eqn:RP; [|injection H as <- <-; eapply read_prompt_err, RP|discriminate H]. cbv zeta in H.
  destruct (_ || _); [discriminate H|]. destruct (_ || _); [discriminate H|]. destruct (text_eqb _ _); [discriminate H|].
  unfold bind_act in H. destruct (println_interactive _ u1) as [rl u2] eqn:PL.
  apply println_interactive_cases in PL as [(-> & _)|(-> & _)]; [eapply IH, H|]. injection H as <- <-. unfold tty_error. cbn. auto.
Qed.
Lemma question_err u : match fst (read_prompt_bool 0 question false u) with Ok _ => True | Err e => tty_error e | Panic => False end.
Proof.
  unfold read_prompt_bool. destruct (_ || _); [exact I|]. unfold bind_act. destruct (prompt_loop _ _ false u) as [[b|e|] u1] eqn:E; cbn [fst ret].
  - exact I.
  - eapply prompt_loop_err, E.
  - apply prompt_loop_cases in E as (_ & E & _). apply E; [lia|reflexivity].
Qed.

(** ** The command *)

Section Crypt.
Variable entry_of : names.
Variable lib : crypto_lib.
Hypothesis Hlib : lib_ok lib.

Lemma println_result t u : match fst (ui_println 0 t u) with Ok _ => True | Err e => e = CIo /\ u_room u <> None | Panic => False end.
Proof. unfold ui_println, emit. destruct (will_print u 0); [destruct (u_room u) as [[|]|] eqn:E|]; cbn; try exact I. split; congruence. Qed.
Lemma process_err {k n} force d l : forall w e w', process entry_of lib k n l force d w (Err e) w' -> e = CIo.
Proof.
  revert k. induction l as [|st l IH]; intros k w e w' H; [destruct H as [E _]; discriminate E|]. cbn [process] in H.
  destruct H as [([c0 e0] & w1 & _ & H)|[(e1 & H & _)|(_ & E)]]; [|exfalso|discriminate E].
  - destruct H as [(u & w2 & _ & H)|[(e1 & H & E)|(_ & E)]]; [|injection E as <-|discriminate E].
    + destruct H as [([c1 e1] & w3 & _ & [E _])|[(e1 & H & E)|(_ & E)]]; [discriminate E| |discriminate E]. injection E as <-. eapply IH, H.
    + destruct H as [E _]. pose proof (println_result [] (w_ui w1)) as Z. rewrite <- E in Z. apply Z.
  - unfold step in H. destruct H as [([res cb] & w1 & _ & H)|[(e2 & H & _)|(_ & E)]]; [| |discriminate E].
    + destruct res as [[]|e2|]; [destruct H as [E _]; discriminate E| |destruct H as [E _]; discriminate E].
      destruct H as [(u & w2 & _ & H)|[(e3 & [H _] & _)|(_ & E)]]; [| |discriminate E].
      * destruct H as [(u' & w3 & _ & [E _])|[(e3 & H & _)|(_ & E)]]; [discriminate E| |discriminate E].
        destruct cb as [p|]; [|destruct H as [E _]; discriminate E]. apply remove_cb_spec in H as [E _]. discriminate E.
      * unfold ignore in H. destruct (print_error e2 (w_ui w1)) as [[| |] ?]; discriminate H.
    + unfold attempt in H. destruct H as [(o & w1 & _ & H)|[(e3 & H & _)|(_ & E)]]; [| |discriminate E].
      * destruct o as [[[rd wr] cb]|e3|]; [|destruct H as [E _]; discriminate E..].
        destruct H as [(x & w2 & _ & [E _])|[(e3 & H & _)|(_ & E)]]; [discriminate E| |discriminate E].
        destruct H as [(y & _ & _ & E)|(_ & E)]; discriminate E.
      * destruct H as [(y & _ & _ & E)|(_ & E)]; discriminate E.
Qed.

(** The entries of a list of paths. *)
Definition entries (l : list path) : list N := flat_map (fun p => match entry_of p with Some s => [s] | None => [] end) l.
Lemma in_entries l s : In s (entries l) <-> exists p, In p l /\ entry_of p = Some s.
Proof.
  unfold entries. rewrite in_flat_map. split; intros (p & A & B); exists p; (split; [exact A|]).
  - destruct (entry_of p); [destruct B as [->|[]]; reflexivity|destruct B].
  - rewrite B. left. reflexivity.
Qed.

(** Everything about a run without force: the loop up to [w1], and the removal of the originals. *)
Lemma crypt_inv streams policy force d w r w' : crypt_streams entry_of lib streams policy force d w r w' ->
  exists rp w1, process entry_of lib 0 (length streams) streams force d w rp w1 /\
  ((exists e, rp = Err e /\ r = Err e /\ w' = w1) \/ (rp = Panic /\ r = Panic /\ w' = w1) \/
   exists cbs errs, rp = Ok (cbs, errs) /\
    ((same_files w1 w' /\ (r = match errs with [] => Ok tt | _ => Err CComposite end \/ (policy = PromptUser /\ exists e, tty_error e /\ r = Err e))) \/
     (exists w2, same_files w1 w2 /\ remove_all entry_of cbs force w2 (Ok tt) w' /\ deletion_requested policy w w' /\
        r = match errs with [] => Ok tt | _ => Err CComposite end))).
Proof.
  intros H. destruct H as [([cbs errs] & w1 & H1 & H)|[(e & H1 & ->)|(H1 & ->)]]; [|eauto 8..].
  exists (Ok (cbs, errs)), w1. split; [exact H1|]. right. right. exists cbs, errs. split; [reflexivity|].
  assert (L1 : later (w_ui w) (w_ui w1)) by (eapply iol_process, H1). clear H1.
  assert (R : forall w2 r2, remove_all entry_of cbs force w2 r2 w' -> r2 = Ok tt).
  { clear. intros w2 r2. revert w2. induction cbs as [|p cbs IH]; intros w2 H; [destruct H; assumption|]. cbn [remove_all] in H.
    destruct H as [(u & w3 & H1 & H)|[(e & H1 & ->)|(H1 & ->)]]; [eapply IH, H|destruct (remove_cb_spec _ _ _ _ _ _ H1) as [E _]; discriminate E..]. }
  destruct H as [(u & w2 & H & [-> ->])|[(e & H & ->)|(H & ->)]].
  - destruct cbs as [|p cbs]; [destruct H as [_ ->]; left; split; [apply same_refl|auto]|]. set (l := p :: cbs) in *.
    destruct H as [(del & w3 & H3 & H)|[(e & _ & E)|(_ & E)]]; [|discriminate E..].
    assert (Q : same_files w1 w3) by (destruct policy; [exact (quiet_ret _ _ _ _ H3)|exact (quiet_ret _ _ _ _ H3)|revert H3; apply quiet_bind; [apply quiet_ui|intros; apply quiet_ret]]).
    destruct del; [|destruct H as [_ ->]; left; split; [exact Q|auto]].
    right. exists w3. split; [exact Q|]. destruct u. split; [exact H|]. split; [|reflexivity].
    pose proof (iol_remove_all _ _ _ _ _ _ H) as [lf Lf]. destruct policy.
    + destruct H3 as [E _]. discriminate E.
    + left. reflexivity.
    + right. split; [reflexivity|]. destruct H3 as [(a & w4 & H3 & [E ->])|[(e & _ & E)|(_ & E)]]; [|discriminate E..].
      destruct H3 as [Er Ew]. injection E as E. destruct a as [b|]; [|discriminate E]. subst b.
      destruct (read_prompt_bool 0 question false (w_ui w1)) as [ra u2] eqn:Eq. cbn [fst snd] in *. subst ra.
      apply question_yes in Eq as (before & reply & Eq & Y). destruct L1 as [l1 L1].
      exists (l1 ++ before), reply, lf. split; [|exact Y]. rewrite Lf, Ew. cbn [set_ui w_ui]. rewrite Eq, L1, <- !app_assoc. reflexivity.
  - left. destruct cbs as [|p cbs]; [destruct H as [E _]; discriminate E|]. set (l := p :: cbs) in *.
    destruct H as [(del & w3 & H3 & H)|[(e' & H3 & E)|(_ & E)]]; [destruct del; [apply R in H; discriminate H|destruct H as [E _]; discriminate E]| |discriminate E].
    injection E as <-. destruct policy; [destruct H3 as [E _]; discriminate E..|].
    destruct H3 as [(a & w4 & _ & [E _])|[(e' & H3 & E)|(_ & E)]]; [discriminate E| |discriminate E]. injection E as <-.
    split; [eapply quiet_ui, H3|]. right. split; [reflexivity|]. exists e. split; [|reflexivity]. destruct H3 as [E _].
    pose proof (question_err (w_ui w1)) as Z. rewrite <- E in Z. exact Z.
  - left. destruct cbs as [|p cbs]; [destruct H as [E _]; discriminate E|]. set (l := p :: cbs) in *.
    destruct H as [(del & w3 & H3 & H)|[(e' & _ & E)|(H3 & _)]]; [destruct del; [apply R in H; discriminate H|destruct H as [E _]; discriminate E]|discriminate E|].
    destruct policy; [destruct H3 as [E _]; discriminate E..|].
    destruct H3 as [(a & w4 & _ & [E _])|[(e' & _ & E)|(H3 & _)]]; [discriminate E|discriminate E|].
    exfalso. destruct H3 as [E _]. pose proof (question_err (w_ui w1)) as Z. rewrite <- E in Z. exact Z.
Qed.
End Crypt.

(** C38, C39, C47 (the question itself) and C52: the dialogue on the terminal. *)
From Coq.Strings Require Import Byte String.
From Coq Require Import List NArith ZArith Bool Lia.
From Verif Require Import Base BaseFacts Shamir Errors Io Text TextProofs Util CliErrors Crypto HeaderCrypto Ui UiSpec UiProofs UiProofs2.
Import ListNotations.
Local Open Scope N_scope.

(** ** C39 *)

(** A reply is the line that was typed; what follows the line feed is still to be read. *)
Theorem C39_prompt_reads_one_line : forall prompt u r u',
  read_prompt prompt u = (Ok r, u') ->
  exists s s', u_input u = Some s /\ types s r s' /\ u_input u' = Some s'.
Proof.
  intros prompt u r u' H. destruct (read_prompt_cases _ _ _ _ H) as (_ & [(t & s & s' & E & A & B & C & _)|(e & E & _)]).
  - injection E as <-. eauto.
  - discriminate E.
Qed.

(** Every line can be typed. *)
Theorem C39_every_line_is_accepted : forall prompt u s r s',
  interactive u -> u_room u = None -> u_input u = Some s -> types s r s' ->
  exists u', read_prompt prompt u = (Ok r, u') /\ u_input u' = Some s'.
Proof.
  intros prompt u s r s' I R Iu T. destruct (read_prompt_run prompt u s r s' I R Iu T) as (u' & A & _ & B). eauto.
Qed.

(** Anything else is an error, not an abort. *)
Theorem C39_prompt_never_aborts : forall prompt u, fst (read_prompt prompt u) <> Panic.
Proof.
  intros prompt u. destruct (read_prompt prompt u) as [r u'] eqn:E.
  destruct (read_prompt_cases _ _ _ _ E) as (_ & [(t & s & s' & -> & _)|(e & -> & _)]); discriminate.
Qed.

(** ** C38 *)

(** A password comes from a dialogue in which it was accepted. *)
Theorem C38_password_confirmed : forall d name u c u',
  read_password_interactively d name u = (Ok c, u') ->
  exists s rs p s', u_input u = Some s /\ replies s rs s' /\ accepts (is_encrypt d) rs p /\
    c = Password (utf8 p) /\ u_input u' = Some s'.
Proof.
  intros d name u c u' H. unfold read_password_interactively in H. destruct (negb (can_read u)); [discriminate H|].
  apply password_loop_cases in H as (_ & _ & H). exact (H c eq_refl).
Qed.

(** Every such dialogue gives the password. *)
Theorem C38_every_confirmed_password_is_accepted : forall d name u s rs p s',
  interactive u -> u_room u = None -> u_input u = Some s -> replies s rs s' -> accepts (is_encrypt d) rs p ->
  exists u', read_password_interactively d name u = (Ok (Password (utf8 p)), u') /\ u_input u' = Some s'.
Proof.
  intros d name u s rs p s' I R Iu Rs A. unfold read_password_interactively.
  rewrite (proj2 (can_read_iff u) I). cbn [negb]. eapply password_loop_run; try eassumption.
  unfold input_size. rewrite Iu. lia.
Qed.

(** Without a terminal nothing is asked; and there is never an abort. *)
Theorem C38_no_prompt_without_terminal : forall d name u,
  (~ interactive u -> read_password_interactively d name u = (Err CCannotPrompt, u)) /\
  fst (read_password_interactively d name u) <> Panic.
Proof.
  intros d name u. unfold read_password_interactively. split.
  - intros N. rewrite not_interactive by exact N. reflexivity.
  - destruct (negb (can_read u)); [discriminate|].
    destruct (password_loop _ d _ u) as [r u'] eqn:E. apply password_loop_cases in E as (_ & NP & _). apply NP. lia.
Qed.

(** ** C47, the question *)

Theorem C47_yes_must_be_typed : forall verbosity prompt default u b u',
  read_prompt_bool verbosity prompt default u = (Ok (Some b), u') ->
  exists s rs s', u_input u = Some s /\ replies s rs s' /\ answers default rs b /\ u_input u' = Some s'.
Proof.
  intros v prompt def u b u' H. unfold read_prompt_bool in H.
  destruct (negb (can_read u) || negb (will_print u v)); [discriminate H|].
  unfold bind_act in H. destruct (prompt_loop _ _ def u) as [r u1] eqn:E.
  apply prompt_loop_cases in E as (_ & _ & K). destruct r as [b'|e|]; try discriminate H. injection H as <- <-. auto.
Qed.

Theorem C47_every_answer_is_understood : forall verbosity prompt default u s rs b s',
  interactive u -> (verbosity <= u_verbosity u)%Z -> u_room u = None -> u_input u = Some s ->
  replies s rs s' -> answers default rs b ->
  exists u', read_prompt_bool verbosity prompt default u = (Ok (Some b), u') /\ u_input u' = Some s'.
Proof.
  intros v prompt def u s rs b s' I V R Iu Rs A. unfold read_prompt_bool, will_print.
  rewrite (proj2 (can_read_iff u) I), (proj2 (Z.leb_le _ _) V). cbn [negb orb].
  match goal with |- context [prompt_loop (S (input_size u)) ?p def] =>
    destruct (prompt_loop_run p def rs b A (S (input_size u)) u s s' I R Iu Rs) as (u' & E & I' & _) end.
  { unfold input_size. rewrite Iu. lia. }
  exists u'. unfold bind_act. rewrite E. split; [reflexivity|exact I'].
Qed.

Theorem C47_no_question_without_terminal : forall verbosity prompt default u,
  (~ interactive u \/ (u_verbosity u < verbosity)%Z ->
     read_prompt_bool verbosity prompt default u = (Ok None, u)) /\
  fst (read_prompt_bool verbosity prompt default u) <> Panic.
Proof.
  intros v prompt def u. unfold read_prompt_bool. split.
  - intros [N|N].
    + rewrite not_interactive by exact N. reflexivity.
    + unfold will_print. rewrite (proj2 (Z.leb_gt v (u_verbosity u)) N). rewrite orb_true_r. reflexivity.
  - destruct (negb (can_read u) || negb (will_print u v)); [discriminate|]. unfold bind_act.
    destruct (prompt_loop _ _ def u) as [r u'] eqn:E. apply prompt_loop_cases in E as (_ & NP & _).
    destruct r; try discriminate. exfalso. apply NP; [lia|reflexivity].
Qed.

(** ** C52 *)

(** Whatever happens during a password dialogue (end of input, errors of the terminal, invalid text), nothing is
    typed while the terminal echoes, it echoes again at the end, and only fixed messages are printed. *)
Theorem C52_passwords_stay_hidden : forall d name u r u',
  read_password_interactively d name u = (r, u') ->
  exists tr, u_trace u' = u_trace u ++ tr /\ hidden true tr /\ echo_at_end true tr = true /\
    forall m, In m (printed tr) ->
      In m [MPrompt (lit "Enter password" ++ (match name with Some n => lit " (" ++ n ++ lit ")" | None => [] end) ++ lit ": ");
            MPrompt (lit "Confirm password: "); MLine [];
            MLine (lit "Password can not be empty, try again."); MLine (lit "Passwords don't match, try again.")].
Proof.
  intros d name u r u' H. unfold read_password_interactively in H. destruct (negb (can_read u)).
  - injection H as <- <-. exists []. rewrite app_nil_r. repeat split. intros m [].
  - apply password_loop_cases in H as ((tr & A & B & C & D) & _ & _). exists tr. repeat split; try assumption.
    intros m I. apply D in I. unfold password_messages in I. cbn [In] in I |- *. tauto.
Qed.

Print Assumptions C39_prompt_reads_one_line.
Print Assumptions C39_every_line_is_accepted.
Print Assumptions C39_prompt_never_aborts.
Print Assumptions C38_password_confirmed.
Print Assumptions C38_every_confirmed_password_is_accepted.
Print Assumptions C38_no_prompt_without_terminal.
Print Assumptions C47_yes_must_be_typed.
Print Assumptions C47_every_answer_is_understood.
Print Assumptions C47_no_question_without_terminal.
Print Assumptions C52_passwords_stay_hidden.

(** ** Cases *)

(** "é\r\n" arrives in three pieces, the rest of the input stays. *)
Definition case_source : source :=
  [RInterrupted; RData [xc3]; RData [xa9; x0d]; RData [x0a; x41; x42]].
Definition case_ui (s : source) : ui := mkUi (Some s) true true 0 true None [].

Example C39_case : types case_source [233] [RData [x41; x42]] /\ interactive (case_ui case_source) /\
  fst (read_prompt (lit "? ") (case_ui case_source)) = Ok [233].
Proof.
  split; [|split; [repeat split; discriminate|vm_compute; reflexivity]].
  exists [233; 13]. split; [repeat (constructor; [left; reflexivity|]); constructor|].
  split; [intros [H|[H|[]]]; discriminate H|]. split; [|left; reflexivity].
  repeat constructor.
Qed.

(** An empty line, a mistyped confirmation and then the same line twice. *)
Definition case_password_source : source :=
  [RData [x0a]; RData [x61; x0a]; RData [x62; x0a]; RData [x61; x0a; x61]; RData [x0a]; RData [x43]].

Example C38_case : exists rs p s', replies case_password_source rs s' /\ accepts true rs p /\ p = [97] /\ s' = [RData [x43]] /\
  fst (read_password_interactively Encrypt None (case_ui case_password_source)) = Ok (Password [x61]).
Proof.
  assert (without_cr [97] [97]) as W by (right; split; [reflexivity|]; intros [|? [|]]; discriminate).
  assert (without_cr [98] [98]) as W2 by (right; split; [reflexivity|]; intros [|? [|]]; discriminate).
  assert (without_cr [] []) as W0 by (right; split; [reflexivity|]; intros [|]; discriminate).
  assert (Forall scalar [97]) as Sa by (constructor; [left; reflexivity|constructor]).
  assert (Forall scalar [98]) as Sb by (constructor; [left; reflexivity|constructor]).
  exists [[]; [97]; [98]; [97]; [97]], [97], [RData [x43]].
  split; [|split; [|split; [reflexivity|split; [reflexivity|vm_compute; reflexivity]]]].
  - eapply r_line; [exists []; split; [constructor|]; split; [intros []|]; split; [repeat constructor|exact W0]|].
    eapply r_line; [exists [97]; split; [exact Sa|]; split; [intros [H|[]]; discriminate H|]; split; [repeat constructor|exact W]|].
    eapply r_line; [exists [98]; split; [exact Sb|]; split; [intros [H|[]]; discriminate H|]; split; [repeat constructor|exact W2]|].
    eapply r_line; [exists [97]; split; [exact Sa|]; split; [intros [H|[]]; discriminate H|]; split; [repeat constructor|exact W]|].
    eapply r_line; [exists [97]; split; [exact Sa|]; split; [intros [H|[]]; discriminate H|]; split; [repeat constructor|exact W]|].
    constructor.
  - apply acc_empty, acc_mismatch; [discriminate|discriminate|]. apply acc_encrypt. discriminate.
Qed.

(** "maybe", then "YES". *)
Example C47_case : answers false [lit "maybe"; lit "YES"] true /\
  fst (read_prompt_bool 0 (lit "Remove?") false (case_ui [RData (utf8 (lit "maybe") ++ [x0a]); RData (utf8 (lit "YES") ++ [x0a])])) = Ok (Some true).
Proof.
  split; [|vm_compute; reflexivity]. apply ans_again; [discriminate| | |apply ans_yes; cbn; auto 20];
    vm_compute; intros H; repeat destruct H as [H|H]; discriminate H || destruct H.
Qed.

Example C52_case : exists tr u', read_password_interactively Encrypt None (case_ui case_password_source) = (Ok (Password [x61]), u') /\
  u_trace u' = tr /\ typed tr = [[]; [97]; [98]; [97]; [97]] /\ hidden true tr.
Proof. eexists _, _. split; [vm_compute; reflexivity|]. split; [reflexivity|]. vm_compute. auto 20. Qed.

(** Echoing at the end needs an end: if the process is killed during the dialogue (control-C; nothing in /repo catches
    signals) then the terminal can be left without echo. *)
Theorem C52_killed_during_the_dialogue_refuted : exists d name u r u' tr rest,
  read_password_interactively d name u = (r, u') /\ u_trace u' = u_trace u ++ tr ++ rest /\ echo_at_end true tr = false.
Proof.
  exists Encrypt, None, (case_ui case_password_source), (Ok (Password [x61])). eexists.
  exists [Echo false; Printed (MPrompt (lit "Enter password: "))]. eexists.
  split; [vm_compute; reflexivity|]. split; vm_compute; reflexivity.
Qed.
Print Assumptions C52_killed_during_the_dialogue_refuted.

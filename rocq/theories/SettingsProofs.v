(** Reading credentials does not change what the interface shows (C53) and whether it has an input (C58). *)
From Coq.Strings Require Import Byte String.
From Coq Require Import List NArith ZArith Bool PeanoNat Lia.
From Verif Require Import Base Text Util CliErrors Getopts Crypto HeaderCrypto KeyFiles Ui CliCreds.
Import ListNotations.
Local Open Scope N_scope.

Definition has_input (u : ui) : bool := match u_input u with Some _ => true | None => false end.
Definition settings (u : ui) := (u_input_is_tty u, u_output_is_tty u, u_verbosity u, u_progress_enabled u, has_input u).
Definition keeps {A} (m : act A) : Prop := forall u, settings (snd (m u)) = settings u.

Lemma keeps_ret {A} (a : A) : keeps (ret a).
Proof. intros u. reflexivity. Qed.
Lemma keeps_lift {A} (x : outcome cerr A) : keeps (lift x).
Proof. intros u. reflexivity. Qed.
Lemma keeps_bind {A B} (m : act A) (f : A -> act B) : keeps m -> (forall a, keeps (f a)) -> keeps (bind_act m f).
Proof. intros M F u. unfold bind_act. specialize (M u). destruct (m u) as [[a| |] u1]; cbn [snd] in *; [rewrite F|..]; exact M. Qed.
Lemma keeps_ignore {A} (m : act A) : keeps m -> keeps (ignore m).
Proof. intros M u. unfold ignore. specialize (M u). destruct (m u) as [[a| |] u1]; exact M. Qed.
Lemma keeps_emit m : keeps (emit m).
Proof. intros u. unfold emit. destruct (u_room u) as [[|n]|]; reflexivity. Qed.
Lemma keeps_println v t : keeps (ui_println v t).
Proof. intros u. unfold ui_println. destruct (will_print u v); [apply keeps_emit|reflexivity]. Qed.
Lemma keeps_print_error e : keeps (print_error e).
Proof. intros u. unfold print_error. destruct (will_print u _); [apply keeps_emit|reflexivity]. Qed.
Lemma keeps_interactive t : keeps (println_interactive t).
Proof. intros u. unfold println_interactive. destruct (will_print u _); [apply keeps_emit|reflexivity]. Qed.
Lemma keeps_read_prompt p : keeps (read_prompt p).
Proof.
  intros u. unfold read_prompt. destruct (negb (can_read u)); [reflexivity|]. revert u. apply keeps_bind; [apply keeps_emit|]. intros _ u.
  destruct (u_input u) as [s|] eqn:E; [|reflexivity]. unfold settings, has_input. rewrite E. destruct (read_chars _ s [] []) as [[t| |] s']; reflexivity.
Qed.
Lemma keeps_read_password p : keeps (read_password p).
Proof.
  intros u. unfold read_password. destruct (negb (can_read u)); [reflexivity|]. revert u. apply keeps_bind; [intros u; reflexivity|]. intros _ u.
  pose proof (keeps_read_prompt p u) as K. destruct (read_prompt p u) as [r u1]. cbn [snd] in K. rewrite <- K. clear K. revert u1.
  apply keeps_bind; [intros u1; reflexivity|]. intros _. apply keeps_bind; [apply keeps_interactive|]. intros _. apply keeps_lift.
Qed.
Lemma keeps_prompt_bool v p d : keeps (read_prompt_bool v p d).
Proof.
  intros u. unfold read_prompt_bool. destruct (_ || _); [reflexivity|]. generalize (S (input_size u)) as fuel. intros fuel. revert u.
  apply keeps_bind; [|intros b; apply keeps_ret]. induction fuel as [|fuel IH]; [apply keeps_lift|]. cbn [prompt_loop].
  apply keeps_bind; [apply keeps_read_prompt|]. intros r. cbv zeta. repeat (destruct (_ || _) || destruct (text_eqb _ _)); try apply keeps_ret.
  apply keeps_bind; [apply keeps_interactive|]. intros _. exact IH.
Qed.
Lemma keeps_interactively d n : keeps (read_password_interactively d n).
Proof.
  intros u. unfold read_password_interactively. destruct (negb (can_read u)); [reflexivity|]. cbv zeta.
  match goal with |- context [password_loop _ d ?msg] => generalize msg end. intros msg.
  generalize (S (input_size u)) as fuel. intros fuel. revert u. change (keeps (password_loop fuel d msg)).
  induction fuel as [|fuel IH]; [apply keeps_lift|]. cbn [password_loop]. apply keeps_bind; [apply keeps_read_password|]. intros p.
  destruct (text_eqb p []); [apply keeps_bind; [apply keeps_interactive|intros _; exact IH]|].
  apply keeps_bind.
  - destruct (is_encrypt d); [|apply keeps_ret]. apply keeps_bind; [apply keeps_read_password|]. intros q. apply keeps_ret.
  - intros [|]; (apply keeps_bind; [apply keeps_interactive|]); intros _; [apply keeps_ret|exact IH].
Qed.

Section WithEnvironment.
Variable sha512 : bytes -> bytes.
Variable files : text -> option bytes.

Lemma keeps_read_token d s t : keeps (read_token sha512 files d s t).
Proof.
  destruct t; cbn [read_token]; unfold ensure_act;
    try (apply keeps_lift); (apply keeps_bind; [apply keeps_interactively || apply keeps_lift|]); intros ?; try apply keeps_ret; try apply keeps_lift.
  apply keeps_bind; [apply keeps_lift|]. intros ?. apply keeps_ret.
Qed.
Lemma keeps_add_creds st cs : keeps (add_creds st cs).
Proof. apply keeps_bind; [apply keeps_lift|]. intros ?. apply keeps_ret. Qed.
Lemma keeps_parse_loop d s fuel : forall level st ts, keeps (parse_loop sha512 files fuel d s level st ts).
Proof.
  induction fuel as [|fuel IH]; intros level st ts; [apply keeps_lift|]. cbn [parse_loop].
  destruct ts as [|t ts]; [apply keeps_bind; [apply keeps_lift|intros ?; apply keeps_ret]|].
  apply keeps_bind; [apply keeps_lift|]. intros _. apply keeps_bind; [apply keeps_lift|]. intros _.
  destruct t;
    try (apply keeps_bind; [apply keeps_read_token|]; intros cs; apply keeps_bind; [apply keeps_add_creds|]; intros st'; apply IH);
    try (apply keeps_bind; [apply keeps_lift|]; intros ?; apply IH).
  - apply keeps_bind; [apply IH|]. intros [c ts']. apply keeps_bind; [apply keeps_add_creds|]. intros st'. apply IH.
  - apply keeps_bind; [apply keeps_lift|]. intros ?. apply keeps_ret.
Qed.
Lemma keeps_complex d s ts : keeps (parse_complex_credential sha512 files d s ts).
Proof. apply keeps_bind; [apply keeps_parse_loop|]. intros [c l]. apply keeps_ret. Qed.
Lemma keeps_get_encrypt m force : keeps (get_encrypt_credential sha512 files m force).
Proof. apply keeps_bind; [apply keeps_lift|]. intros ts. apply keeps_complex. Qed.
Lemma keeps_get_decrypt m force : keeps (get_decrypt_credentials sha512 files m force).
Proof.
  apply keeps_bind; [apply keeps_lift|]. intros ts. apply keeps_bind; [apply keeps_complex|]. intros c. destruct c; try apply keeps_lift.
  apply keeps_bind; [apply keeps_lift|]. intros _. apply keeps_bind; [apply keeps_lift|]. intros _. apply keeps_lift.
Qed.
End WithEnvironment.

(** Proofs that a reliable operating system refuses no removals. *)
From Coq.Strings Require Import Byte String.
From Coq Require Import List NArith ZArith Bool PeanoNat Lia.
From Verif Require Import Base BaseFacts Shamir Errors Io HeaderIoSpec StreamSpec Text Util CliErrors Crypto HeaderCrypto CredSpec FileCrypto Ui UiSpec Paths Cli Fs Commands FsSpec.
Import ListNotations.
Local Open Scope N_scope.

Section Sound.
Variable entry_of : names.
Variable lib : crypto_lib.
Hypothesis sound : faulty entry_of = false.

Definition steady {A} (m : io A) : Prop := forall w r w', m w r w' -> w_refused w' = w_refused w.
Lemma steady_ret {A} (a : A) : steady (io_ret a).
Proof. intros w r w' [_ ->]. reflexivity. Qed.
Lemma steady_lift {A} (x : outcome cerr A) : steady (io_lift x).
Proof. intros w r w' [_ ->]. reflexivity. Qed.
Lemma steady_ui {A} (m : act A) : steady (io_ui m).
Proof. intros w r w' [_ ->]. reflexivity. Qed.
Lemma steady_bind {A B} (m : io A) (f : A -> io B) : steady m -> (forall a, steady (f a)) -> steady (io_bind m f).
Proof. intros M F w r w' [(a & w1 & H1 & H2)|[(e & H & _)|(H & _)]]; [|eapply M, H..]. rewrite (F _ _ _ _ H2). eapply M, H1. Qed.
Lemma steady_try {A} (m : io A) : steady m -> steady (io_try m).
Proof. intros M w r w' [(x & _ & H & _)|(H & _)]; eapply M, H. Qed.
Lemma write_refused wr d w : w_refused (write_out wr d w) = w_refused w.
Proof.
  destruct wr as [i|]; [|reflexivity]. unfold write_out. destruct (f_nodes (w_fs w) i) as [n|]; [|reflexivity]. destruct (n_regular n); [|reflexivity].
  generalize (seq 1 (length d)). intros l. generalize w. induction l as [|k l IH]; intros w0; [reflexivity|]. cbn [fold_left]. rewrite IH. reflexivity.
Qed.
Lemma steady_open_file p : steady (open_file entry_of p).
Proof.
  apply steady_bind; [intros w r w' [-> _]; reflexivity|]. intros rd. apply steady_bind; [intros w r w' [-> _]; reflexivity|]. intros md. apply steady_bind; [apply steady_lift|]. intros _. apply steady_ret.
Qed.
Lemma steady_open_input i force : steady (open_input entry_of i force).
Proof.
  destruct i as [p|p|]; cbn [open_input].
  - apply steady_bind; [apply steady_open_file|]. intros [rd md]. do 3 (apply steady_bind; [apply steady_lift|]; intros _). apply steady_ret.
  - apply steady_bind; [apply steady_open_file|]. intros [rd md]. apply steady_ret.
  - intros w r w'. unfold open_stdin. destruct (u_input (w_ui w)); intros [_ ->]; reflexivity.
Qed.
Lemma steady_open_output o force : steady (open_output entry_of o force).
Proof.
  destruct o as [p|]; cbn [open_output]; [|apply steady_ret]. destruct force; intros w r w' H.
  - destruct H as [(_ & -> & _)|(s & t & i & _ & _ & _ & [(_ & _ & ->)|(n & _ & _ & ->)])]; [reflexivity..|]. destruct (n_regular n); reflexivity.
  - destruct H as [(_ & -> & _)|(s & i & _ & _ & _ & _ & ->)]; reflexivity.
Qed.
Lemma steady_convert d rd wr : steady (convert entry_of lib d rd wr).
Proof.
  intros w r w' (er & src & room & fl & r0 & snk & k & _ & _ & _ & _ & [(_ & ->)|(_ & _ & out & _ & ->)]); cbn [set_ui w_refused]; apply write_refused.
Qed.
Lemma steady_remove_cb p force : steady (remove_cb entry_of p force).
Proof.
  apply steady_bind.
  - apply steady_try. intros w r w'. unfold remove_file. destruct (entry_of p) as [s|]; [|intros [_ ->]; reflexivity].
    destruct (f_entries (w_fs w) s) as [[i|t|]|]; try (intros [_ ->]; reflexivity); intros [(F & _)|(_ & ->)]; [congruence|reflexivity|congruence|reflexivity].
  - intros [[]|e|]; [apply steady_ret| |apply steady_ret]. destruct force; [apply steady_ret|apply steady_ui].
Qed.
Lemma crypt_refused streams policy force d : steady (crypt_streams entry_of lib streams policy force d).
Proof.
  apply steady_bind.
  - generalize 0%nat (length streams). intros k n. revert k. induction streams as [|st l IH]; intros k; cbn [process]; [apply steady_ret|]. apply steady_bind; [|intros [c e]; apply steady_bind; [apply steady_ui|]; intros _; apply steady_bind; [apply IH|]; intros [c' e']; apply steady_ret].
    apply steady_bind.
    + apply steady_bind; [apply steady_try|].
      * apply steady_bind; [apply steady_ui|]. intros _. apply steady_bind; [apply steady_lift|]. intros o. apply steady_bind; [apply steady_open_input|]. intros rd.
        apply steady_bind; [apply steady_open_output|]. intros wr. apply steady_ret.
      * intros [[[rd wr] cb]|e|]; [apply steady_bind; [apply steady_try, steady_convert|]; intros r; apply steady_ret|apply steady_ret|apply steady_lift].
    + intros [res cb]. destruct res as [[]|e|]; [apply steady_ret| |apply steady_lift]. apply steady_bind; [apply steady_ui|]. intros _. apply steady_bind; [|intros _; apply steady_ret].
      destruct cb as [p|]; [apply steady_remove_cb|apply steady_ret].
  - intros [cbs errs]. apply steady_bind; [|intros _; apply steady_lift]. destruct cbs as [|p cbs]; [apply steady_ret|]. apply steady_bind.
    + destruct policy; try apply steady_ret. apply steady_bind; [apply steady_ui|]. intros a. apply steady_ret.
    + intros b. destruct b; [|apply steady_ret]. generalize (p :: cbs). clear - sound. intros l. induction l as [|p l IH]; cbn [remove_all]; [apply steady_ret|]. apply steady_bind; [|intros _; exact IH]. apply steady_remove_cb.
Qed.
End Sound.

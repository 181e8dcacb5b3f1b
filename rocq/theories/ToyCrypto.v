(** The toy crypto system meets [crypto_ok]; a checker for [no_accident] used in examples. *)
From Coq Require Import List NArith Bool Lia PeanoNat.
From Coq.Strings Require Import Byte.
From Verif Require Import Base BaseFacts Shamir Errors Crypto Proto HeaderCrypto CredSpec.
Import ListNotations.

Lemma pad_to_length n b : length (pad_to n b) = n.
Proof. unfold pad_to. rewrite firstn_length, app_length, repeat_length. lia. Qed.

Lemma pad_to_exact n b : length b = n -> pad_to n b = b.
Proof.
  intros H. unfold pad_to. rewrite <- H at 1. apply firstn_app_exact.
Qed.

Lemma toy_ok : crypto_ok toy_cs.
Proof.
  constructor; cbn [toy_cs cs_hash cs_hmac cs_kdf cs_aead_encrypt cs_aead_decrypt cs_keypair cs_beforenm cs_box_seal cs_box_open fst snd];
    intros; rewrite ?app_length, ?pad_to_length; auto.
  - now rewrite bytes_eqb_refl.
  - destruct (bytes_eqb _ _) in H; [|discriminate]. now injection H as <-.
  - now rewrite bytes_eqb_refl.
  - rewrite <- (pad_to_length 32 (toy_sum 32 s)) at 1. apply skipn_app_exact.
  - eexists. split; [reflexivity|]. f_equal.
    assert (E : forall s, skipn 32 (pad_to 32 (toy_sum 32 s) ++ pad_to 32 s) = pad_to 32 s).
    { intros s. rewrite <- (pad_to_length 32 (toy_sum 32 s)) at 1. apply skipn_app_exact. }
    rewrite !E. rewrite !(pad_to_exact 32 (pad_to 32 _)) by apply pad_to_length.
    assert (C : forall a b, map2 bxor a b = map2 bxor b a).
    { induction a as [|x a IH]; intros [|y b]; simpl; auto. now rewrite bxor_comm, IH. }
    apply C.
Qed.

Definition toy_lib : crypto_lib := fun _ => Some toy_cs.
Lemma toy_lib_ok : lib_ok toy_lib.
Proof. intros a cs H. injection H as <-. exact toy_ok. Qed.

Definition toy_pk (s : bytes) : bytes := fst (cs_keypair toy_cs s).
Definition toy_sk (s : bytes) : bytes := snd (cs_keypair toy_cs s).

Definition matches_b (c d : cred) : bool :=
  match c, d with
  | Password p, Password p' | SymmetricKey p, SymmetricKey p' => bytes_eqb p p'
  | PublicKey pk, PrivateKey sk => bytes_eqb pk (toy_pk pk) && bytes_eqb sk (toy_sk pk)
  | _, _ => false
  end.

Lemma matches_b_ok c d : matches_b c d = true -> matches toy_cs c d.
Proof.
  destruct c, d; simpl; try discriminate; intros H; try (now apply bytes_eqb_eq in H).
  apply andb_prop in H as [A B]. apply bytes_eqb_eq in A, B. exists k. subst k0.
  transitivity (toy_pk k, toy_sk k); [reflexivity|]. now rewrite <- A.
Qed.

Definition opens_b (epk : bytes) (d : cred) (ct : bytes) (i : N) : bool :=
  match decryptor_from_credential toy_cs epk d with
  | Ok f => match f ct i with Ok (Some _) => true | _ => false end
  | _ => false
  end.

Fixpoint no_accident_b (epk : bytes) (D recs : list cred) (cts : list bytes) (i : N) : bool :=
  match recs, cts with
  | c :: recs, ct :: cts =>
      forallb (fun d => negb (opens_b epk d ct i) || matches_b c d) D && no_accident_b epk D recs cts (i + 1)
  | _, _ => true
  end.

Lemma no_accident_b_ok' epk D recs : forall cts i,
  no_accident_b epk D recs cts i = true ->
  forall k c ct d, nth_error recs k = Some c -> nth_error cts k = Some ct -> In d D ->
    opens toy_cs epk d ct (i + N.of_nat k) -> matches toy_cs c d.
Proof.
  induction recs as [|c recs IH]; intros [|ct cts] i H k c0 ct0 d A B C E; try (destruct k; discriminate).
  simpl in H. apply andb_prop in H as [H1 H2]. destruct k as [|k]; simpl in A, B.
  - injection A as <-. injection B as <-. rewrite forallb_forall in H1. specialize (H1 d C).
    rewrite N.add_0_r in E. destruct E as (f & m & E1 & E2). unfold opens_b in H1. rewrite E1, E2 in H1. simpl in H1.
    now apply matches_b_ok.
  - apply (IH cts (i + 1)%N H2 k c0 ct0 d A B C). replace (i + 1 + N.of_nat k)%N with (i + N.of_nat (S k))%N by lia. exact E.
Qed.

Lemma no_accident_b_ok epk D recs cts :
  no_accident_b epk D recs cts 0 = true -> no_accident toy_cs epk D recs cts.
Proof. intros H i c ct d A B C E. apply (no_accident_b_ok' epk D recs cts 0 H i c ct d A B C). rewrite N.add_0_l. exact E. Qed.

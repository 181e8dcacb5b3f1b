(** Proofs about the contract of the crypto library, continued: completing a library, and libsodium. *)
From Coq.Strings Require Import Byte String.
From Coq Require Import List Arith NArith Lia Bool.
From Verif Require Import Base BaseFacts Errors Crypto HeaderCrypto CredSpec LibSodium ContractSpec.
Import ListNotations.

(** ** A library that does what it promises can be completed to one that promises it for all arguments *)

Definition aead_argsb (m k n : bytes) : bool := (lenN m <=? message_limit)%N && Nat.eqb (length k) 32 && Nat.eqb (length n) 12.
Definition box_argsb (m k n : bytes) : bool := (lenN m <=? message_limit)%N && Nat.eqb (length k) 32 && Nat.eqb (length n) 24.
Definition kdf_argsb (p s : bytes) : bool := (lenN p <=? password_limit)%N && Nat.eqb (length s) 16.

Lemma aead_argsP m k n : reflect (aead_args m k n) (aead_argsb m k n).
Proof.
  apply iff_reflect. unfold aead_args, aead_argsb. rewrite !andb_true_iff, N.leb_le, !Nat.eqb_eq. tauto.
Qed.
Lemma box_argsP m k n : reflect (box_args m k n) (box_argsb m k n).
Proof.
  apply iff_reflect. unfold box_args, box_argsb. rewrite !andb_true_iff, N.leb_le, !Nat.eqb_eq. tauto.
Qed.
Lemma kdf_argsP p s : reflect (kdf_args p s) (kdf_argsb p s).
Proof.
  apply iff_reflect. unfold kdf_args, kdf_argsb. rewrite !andb_true_iff, N.leb_le, !Nat.eqb_eq. tauto.
Qed.

Definition zeros (n : nat) : bytes := repeat x00 n.

Definition completed (cs : cryptosys) : cryptosys := {|
  cs_hash := cs_hash cs;
  cs_hmac m k := if Nat.eqb (length k) 32 then cs_hmac cs m k else zeros 32;
  cs_aead_encrypt m ad k n := if aead_argsb m k n then cs_aead_encrypt cs m ad k n else (m, zeros 16);
  cs_aead_decrypt c ad k n t :=
    if aead_argsb c k n then if Nat.eqb (length t) 16 then cs_aead_decrypt cs c ad k n t else None else Some c;
  cs_keypair := cs_keypair cs;
  cs_beforenm pk sk := if Nat.eqb (length pk) 32 && Nat.eqb (length sk) 64 then cs_beforenm cs pk sk else None;
  cs_box_seal m n k := if box_argsb m k n then cs_box_seal cs m n k else (m, zeros 16);
  cs_box_open c n k t :=
    if box_argsb c k n then if Nat.eqb (length t) 16 then cs_box_open cs c n k t else None else Some c;
  cs_kdf p s := if kdf_argsb p s then cs_kdf cs p s else zeros 32
|}.

Lemma aead_args_len m c k n : length c = length m -> aead_argsb c k n = aead_argsb m k n.
Proof. intros H. unfold aead_argsb, lenN. now rewrite H. Qed.
Lemma box_args_len m c k n : length c = length m -> box_argsb c k n = box_argsb m k n.
Proof. intros H. unfold box_argsb, lenN. now rewrite H. Qed.

Lemma completed_ok cs : contract cs -> crypto_ok (completed cs).
Proof.
  intros C. constructor; cbn [completed cs_hash cs_hmac cs_aead_encrypt cs_aead_decrypt cs_keypair cs_beforenm cs_box_seal cs_box_open cs_kdf].
  - apply (c_hash_len _ C).
  - intros m k. destruct (Nat.eqb_spec (length k) 32); [now apply (c_hmac_len _ C)|reflexivity].
  - intros p s. destruct (kdf_argsP p s); [now apply (c_kdf_len _ C)|reflexivity].
  - intros m ad k n. destruct (aead_argsP m k n); [now apply (c_aead_len _ C)|reflexivity].
  - intros m ad k n. destruct (aead_argsP m k n); [now apply (c_aead_len _ C)|reflexivity].
  - intros m ad k n. destruct (aead_argsP m k n) as [H|H]; cbn [fst snd].
    + destruct (c_aead_len _ C m ad k n H) as [L1 L2]. rewrite (aead_args_len m) by exact L1.
      destruct (aead_argsP m k n); [|contradiction]. rewrite L2. cbn. now apply (c_aead_inv _ C).
    + destruct (aead_argsP m k n); [contradiction|reflexivity].
  - intros c ad k n t m. destruct (aead_argsP c k n) as [H|H]; [|now intros [= ->]].
    destruct (Nat.eqb_spec (length t) 16); [|discriminate]. now apply (c_aead_dec_len _ C).
  - intros m n k. destruct (box_argsP m k n); [now apply (c_box_len _ C)|reflexivity].
  - intros m n k. destruct (box_argsP m k n); [now apply (c_box_len _ C)|reflexivity].
  - intros m n k. destruct (box_argsP m k n) as [H|H]; cbn [fst snd].
    + destruct (c_box_len _ C m n k H) as [L1 L2]. rewrite (box_args_len m) by exact L1.
      destruct (box_argsP m k n); [|contradiction]. rewrite L2. cbn. now apply (c_box_inv _ C).
    + destruct (box_argsP m k n); [contradiction|reflexivity].
  - intros s. apply (c_keypair _ C).
  - intros s. apply (c_keypair _ C).
  - intros s. apply (c_keypair _ C).
  - intros s1 s2. destruct (c_agree _ C s1 s2) as (k & K1 & K2). exists k.
    destruct (c_keypair _ C s1) as (A1 & A2 & _). destruct (c_keypair _ C s2) as (B1 & B2 & _).
    rewrite A1, A2, B1, B2. cbn. auto.
Qed.

Lemma completed_same cs : same_within (completed cs) cs.
Proof.
  constructor; cbn [completed cs_hash cs_hmac cs_aead_encrypt cs_aead_decrypt cs_keypair cs_beforenm cs_box_seal cs_box_open cs_kdf].
  - reflexivity.
  - intros m k ->. reflexivity.
  - intros p s H. destruct (kdf_argsP p s); [reflexivity|contradiction].
  - intros m ad k n H. destruct (aead_argsP m k n); [reflexivity|contradiction].
  - intros c ad k n t H ->. destruct (aead_argsP c k n); [reflexivity|contradiction].
  - reflexivity.
  - intros pk sk -> ->. reflexivity.
  - intros m n k H. destruct (box_argsP m k n); [reflexivity|contradiction].
  - intros c n k t H ->. destruct (box_argsP c k n); [reflexivity|contradiction].
Qed.

Definition complete_lib (lib : crypto_lib) : crypto_lib := fun a => option_map completed (lib a).

Lemma complete_lib_ok lib : lib_contract lib -> lib_ok (complete_lib lib).
Proof.
  intros C a cs. unfold complete_lib. destruct (lib a) as [cs0|] eqn:E; [|discriminate]. intros [= <-].
  apply completed_ok. eapply C. exact E.
Qed.

Lemma complete_lib_same lib : lib_same_within (complete_lib lib) lib.
Proof. intros a. unfold complete_lib. destruct (lib a); cbn; [apply completed_same|exact I]. Qed.

Lemma same_within_trans a b c : same_within a b -> same_within b c -> same_within a c.
Proof.
  intros H1 H2. constructor; intros.
  - now rewrite (s_hash _ _ H1), (s_hash _ _ H2).
  - now rewrite (s_hmac _ _ H1), (s_hmac _ _ H2).
  - now rewrite (s_kdf _ _ H1), (s_kdf _ _ H2).
  - now rewrite (s_encrypt _ _ H1), (s_encrypt _ _ H2).
  - now rewrite (s_decrypt _ _ H1), (s_decrypt _ _ H2).
  - now rewrite (s_keypair _ _ H1), (s_keypair _ _ H2).
  - now rewrite (s_beforenm _ _ H1), (s_beforenm _ _ H2).
  - now rewrite (s_seal _ _ H1), (s_seal _ _ H2).
  - now rewrite (s_open _ _ H1), (s_open _ _ H2).
Qed.

Lemma lib_same_trans a b c : lib_same_within a b -> lib_same_within b c -> lib_same_within a c.
Proof.
  intros H1 H2 x. specialize (H1 x). specialize (H2 x). destruct (a x), (b x), (c x); try easy.
  eapply same_within_trans; eauto.
Qed.

(** ** libsodium *)

Lemma sodium_contract so : sodium_ok so -> lib_contract (sodium_lib so).
Proof.
  intros K a cs H. unfold sodium_lib in H. destruct (so_init_fails so); [discriminate|].
  assert (H' : cs = sodium_cryptosys so a /\ (a = AES256GCM -> so_aes_available so = true)).
  { destruct a; [|destruct (so_aes_available so) eqn:E; [|discriminate]]; injection H as <-; (split; [reflexivity|]); auto; discriminate. }
  clear H. destruct H' as [-> HA].
  destruct (so_max_ok _ K) as [M1 M2].
  assert (HE : forall m ad k n, aead_args m k n ->
    let '(c, t) := sodium_aead_encrypt so a m ad k n in length c = length m /\ length t = 16 /\ sodium_aead_decrypt so a c ad k n t = Some m).
  { intros m ad k n (A1 & A2 & A3). destruct a; cbn.
    - apply (so_chacha_ok _ K); auto. lia.
    - apply (so_aes_ok _ K); auto. lia. }
  constructor; cbn [sodium_cryptosys cs_hash cs_hmac cs_aead_encrypt cs_aead_decrypt cs_keypair cs_beforenm cs_box_seal cs_box_open cs_kdf].
  - intros m. unfold sodium_hash. rewrite firstn_length, (so_hash_len _ K). reflexivity.
  - apply (so_auth_len _ K).
  - intros p s H. unfold sodium_kdf. destruct (so_pwhash_ok _ K p s H) as (out & -> & L). exact L.
  - intros m ad k n H. specialize (HE m ad k n H). destruct (sodium_aead_encrypt so a m ad k n) as [c t]. cbn. tauto.
  - intros m ad k n H. specialize (HE m ad k n H). destruct (sodium_aead_encrypt so a m ad k n) as [c t]. cbn. tauto.
  - intros c ad k n t m (A1 & A2 & A3) Ht. destruct a; cbn.
    + apply (so_chacha_dec_len _ K); auto. lia.
    + apply (so_aes_dec_len _ K); auto. lia.
  - intros m n k (A1 & A2 & A3). pose proof (so_box_ok _ K m n k A1 A3 A2) as H. destruct (so_box_afternm so m n k). cbn. tauto.
  - intros m n k (A1 & A2 & A3). pose proof (so_box_ok _ K m n k A1 A3 A2) as H. destruct (so_box_afternm so m n k). cbn. tauto.
  - intros s. pose proof (so_keypair_ok _ K s) as H. destruct (so_sign_keypair so s). exact H.
  - intros pk sk k _ _. unfold sodium_beforenm. destruct (so_pk_to_curve25519 so pk); [|discriminate].
    destruct (so_sk_to_curve25519 so sk); [|discriminate]. apply (so_beforenm_len _ K).
  - intros s1 s2. unfold sodium_beforenm.
    pose proof (so_convert_ok _ K s1) as H1. pose proof (so_convert_ok _ K s2) as H2. pose proof (so_agree _ K s1 s2) as H3.
    destruct (so_sign_keypair so s1) as [pk1 sk1], (so_sign_keypair so s2) as [pk2 sk2]. cbn [fst snd] in *.
    destruct H1 as [[a1 A1] [b1 B1]], H2 as [[a2 A2] [b2 B2]]. rewrite A1, A2, B1, B2.
    apply (H3 _ _ _ _ A1 B1 A2 B2).
Qed.

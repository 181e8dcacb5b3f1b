(** Proofs about the contract of the crypto library, continued: round trip. *)
From Coq.Strings Require Import Byte String.
From Coq Require Import List Arith NArith Lia Bool.
From Verif Require Import Base BaseFacts Errors Shamir Io HeaderIo HeaderIoSpec HeaderIoProofs Crypto Proto HeaderCrypto HeaderCryptoProofs CredSpec StreamSpec FileCrypto.
From Verif Require Import FileProofs PropHeader PropFile LibSodium ContractSpec ContractProofs ContractProofs2 ContractProofs3.
Import ListNotations.

Section Keypairs.
Variables cs cs' : cryptosys.
Hypothesis Hk : forall s, cs_keypair cs s = cs_keypair cs' s.

Lemma matches_same c d : matches cs c d -> matches cs' c d.
Proof. destruct c, d; cbn; auto. intros (s & H). exists s. now rewrite <- Hk. Qed.

Lemma selection_in {A} (l k : list A) x : selection l k -> In x l -> In x k.
Proof. induction 1; cbn; intuition. Qed.

Lemma sat_same D c : sat cs D c -> sat cs' D c.
Proof.
  induction c as [p|k|k|k|subs n t IH] using cred_ind'; intros H; inversion H as [c d Hi Hm E|subs' n' t' sel Hsel Hall Ht E]; subst;
    try (eapply sat_leaf; [exact Hi|now apply matches_same]).
  eapply sat_group; [exact Hsel| |exact Ht]. rewrite Forall_forall in *. intros x Hx. apply IH; auto. eapply selection_in; eauto.
Qed.

Lemma decryption_cred_same d : decryption_cred cs d -> decryption_cred cs' d.
Proof. destruct d; cbn; auto. intros (s & H). exists s. now rewrite <- Hk. Qed.
End Keypairs.

Lemma opens_same cs cs' epk d ct i : good_pair cs cs' -> length epk = 32 -> sized d -> small ct ->
  opens cs epk d ct i -> opens cs' epk d ct i.
Proof.
  intros (K & C & S) HL HS Hct (f & m & H1 & H2).
  pose proof (decryptor_same cs cs' K C S epk d HL HS) as H. rewrite H1 in H. inversion H as [x f' Hf E1 E2| |]; subst.
  exists f', m. split; [symmetry; exact E2|]. now rewrite <- Hf.
Qed.

Lemma header_keys_small ser : (lenN ser <= MAX_HEADER_LEN)%N -> Forall small (header_keys ser).
Proof.
  intros HL. unfold header_keys. destruct (decode_header ser) as [[f pk [[t l]|] p]|] eqn:E; try constructor.
  destruct (header_below _ _ E) as [_ H]. specialize (H t l eq_refl). eapply Forall_impl; [|exact H].
  intros b Hb. unfold small, lenN in *. unfold MAX_HEADER_LEN in HL. lia.
Qed.

Lemma contract_round_trip lib opts er src w w' ser cod chunk D src2 v r v' :
  lib_contract lib -> random_ok er -> wf_cred (expression opts) -> sized (expression opts) -> Forall sized D ->
  encrypt_header lib opts er = Ok (ser, cod, chunk) ->
  encrypt_stream lib opts er src w (Ok tt) w' ->
  w_out w' = w_out w ++ flat src2 -> ends_in_error src2 = false ->
  Forall (decryption_cred (co_cs cod)) D ->
  no_accident (co_cs cod) (ephemeral cod er) D (leaves (expression opts)) (header_keys ser) ->
  sat (co_cs cod) D (expression opts) ->
  decrypt_stream lib D src2 v r v' -> room_for v (length (flat src)) -> w_flush_ok v = true ->
  r = Ok tt /\ w_out v' = w_out v ++ flat src /\ w_flushed v' = true.
Proof.
  intros HC Hr Hwf HS HSD He HE Ho Ee HD Ha Hsat H Hroom Hfl.
  set (lib0 := complete_lib lib). pose proof (complete_lib_ok lib HC) as Hok. pose proof (complete_lib_same lib) as Hsame.
  pose proof (encrypt_header_same lib0 lib Hok HC Hsame opts er Hr HS) as HR. rewrite He in HR.
  inversion HR as [[[ser0 cod0] chunk0] x (R1 & R2 & R3) E1 E2| |]; subst. cbn [fst snd] in R1, R2, R3. subst ser0 chunk0.
  assert (HL : (lenN ser <= MAX_HEADER_LEN)%N).
  { unfold encrypt_stream in HE. rewrite He in HE. destruct (write_header w ser) as [[[]| |] w1] eqn:Ew; try (destruct HE; discriminate).
    apply write_header_ok in Ew. apply Ew. }
  destruct R2 as (K & S & _).
  assert (HCc : contract (co_cs cod)).
  { destruct (HeaderCryptoProofs2.encrypt_header_inv _ _ _ _ _ _ He) as (cs & t & l & st & Hcs & _ & _ & _ & -> & _). cbn.
    apply chosen_lib in Hcs. eapply HC. exact Hcs. }
  assert (Hkp : forall s, cs_keypair (co_cs cod0) s = cs_keypair (co_cs cod) s) by apply (s_keypair _ _ S).
  eapply (C22_file_round_trip lib0 opts er src w w' ser cod0 chunk D src2 v r v'); auto.
  - eapply encrypt_stream_same; eauto.
  - eapply Forall_impl; [|exact HD]. intros d. apply decryption_cred_same. intros s. symmetry. apply Hkp.
  - unfold no_accident, ephemeral in *. intros i c ct d Hi Hct Hd Hop. eapply matches_same; [intros s; symmetry; apply Hkp|].
    eapply Ha; eauto. rewrite <- Hkp. eapply opens_same; [split; [exact K|split; [exact HCc|exact S]]| | | |exact Hop].
    + apply (keypair_pk_len _ K).
    + rewrite Forall_forall in HSD. auto.
    + pose proof (header_keys_small ser HL) as Hsm. rewrite Forall_forall in Hsm. apply Hsm. eapply nth_error_In; eauto.
  - eapply sat_same; [intros s; symmetry; apply Hkp|exact Hsat].
  - eapply decrypt_stream_same; eauto.
Qed.

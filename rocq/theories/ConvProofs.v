(** Proofs about the conversion of one stream. *)
From Coq.Strings Require Import Byte String.
From Coq Require Import List NArith ZArith Bool PeanoNat Lia.
From Verif Require Import Base BaseFacts Shamir Errors Io HeaderIo HeaderIoSpec HeaderIoProofs StreamSpec Crypto HeaderCrypto CredSpec HeaderCryptoProofs2 HeaderCryptoProofs2 StreamCrypto Pipeline PipelineSpec FileCrypto StreamProofs StreamProofs3 FileProofs Ui Cli Fs Commands FsSpec.
Import ListNotations.
Local Open Scope N_scope.

Section WithLib.
Variable lib : crypto_lib.
Hypothesis Hlib : lib_ok lib.

Lemma dec_codec_ok ser D cod chunk : decrypt_header lib ser D = Ok (cod, chunk) -> pipe_ok (codec_pipe cod (N.to_nat chunk)).
Proof.
  intros H. destruct (decrypt_header_inv _ _ _ _ _ H) as (h & p & _ & Hcs & _ & _ & Hck & _ & He).
  apply codec_pipe_ok; [eapply cryptosys_ok; eassumption| |right; exact He].
  apply check_chunk_size_iff in Hck.
  rewrite N2Nat.id. unfold two64. lia.
Qed.

Lemma seq_success_reads p src w : seq_success (p_conv p) (input_buffer_size p) src w -> ends_in_error src = false.
Proof. intros [H _]. unfold seq_input_ok in H. destruct (ends_in_error src); [discriminate H|reflexivity]. Qed.

(** Success means that the input was read to its end. *)
Lemma conversion_reads_all d er src w w' : random_ok er -> conversion lib d er src w (Ok tt) w' -> ends_in_error src = false.
Proof.
  intros Hr H. unfold conversion in H. destruct d as [c fast|cs].
  - destruct c as [| | | |subs n t]; try (destruct H; discriminate). unfold encrypt_stream in H.
    destruct (encrypt_header lib _ er) as [[[ser cod] chunk]| |] eqn:He; try (destruct H; discriminate).
    destruct (write_header w ser) as [[[]| |] w1]; try (destruct H; discriminate).
    pose proof (c_pos _ _ _ _ _ _ Hr He) as P. pose proof (c_64 _ _ _ _ _ _ Hr He) as Q.
    destruct (cod_parts _ _ _ _ _ _ Hlib He) as (Hok & Hen & _).
    destruct (encrypt_result cod Hok Hen _ P Q _ _ _ _ H) as (K & _). apply K. reflexivity.
  - unfold decrypt_stream in H. destruct (read_header src) as [[[hd n] src']| |] eqn:Eh; try (destruct H; discriminate).
    destruct (decrypt_header lib hd cs) as [[cod chunk]| |] eqn:Ed; try (destruct H; discriminate).
    destruct (read_header_sound _ _ _ _ Eh) as (_ & _ & _ & <-).
    destruct (convert_stream_spec _ (dec_codec_ok _ _ _ _ Ed) _ _ _ _ H) as (H1 & H2 & H3 & H4).
    apply (seq_success_reads (codec_pipe cod (N.to_nat chunk)) src' w). tauto.
Qed.

(** Every conversion can run. *)
Lemma conversion_total d er src w : random_ok er -> exists r w', conversion lib d er src w r w'.
Proof.
  intros Hr. unfold conversion. destruct d as [c fast|cs].
  - destruct c as [| | | |subs n t]; eauto. unfold encrypt_stream.
    destruct (encrypt_header lib _ er) as [[[ser cod] chunk]|e|] eqn:He; eauto.
    destruct (write_header w ser) as [[[]|e|] w1]; eauto.
    pose proof (c_pos _ _ _ _ _ _ Hr He) as P. pose proof (c_64 _ _ _ _ _ _ Hr He) as Q.
    destruct (cod_parts _ _ _ _ _ _ Hlib He) as (Hok & Hen & _).
    apply convert_stream_exists. apply enc_pipe_ok; assumption.
  - unfold decrypt_stream. destruct (read_header src) as [[[hd n] src']|e|] eqn:Eh; eauto.
    destruct (decrypt_header lib hd cs) as [[cod chunk]|e|] eqn:Ed; eauto.
    apply convert_stream_exists. eapply dec_codec_ok, Ed.
Qed.
End WithLib.

(** C79: the buffers take less than 10 MB, except for files made by someone else.

    Vocabulary (MemorySpec): [allocated s], the total capacity of the buffers at a moment of a run.  See
    also PipelineSpec and CredSpec ([no_accident], [random_ok]). *)
From Coq.Strings Require Import Byte String.
From Coq Require Import List NArith Bool Lia Arith.
From Verif Require Import Base BaseFacts Errors Io Crypto Proto HeaderCrypto HeaderCryptoProofs2 CredSpec StreamCrypto Pipeline
  PipelineSpec FileCrypto StreamProofs ConvProofs ToyCrypto PropPipeline PropHeader PropHide MemorySpec MemoryProofs.
Import ListNotations.
Local Open Scope N_scope.

(** Whatever is encrypted for whomever, at every moment of every schedule, with any input and any output. *)
Theorem C79_encrypting_takes_less_than_10_megabytes :
  forall lib opts er ser cod chunk src w s,
    lib_ok lib -> random_ok er -> encrypt_header lib opts er = Ok (ser, cod, chunk) ->
    steps (codec_pipe cod (N.to_nat chunk)) (start src w) s ->
    allocated s <= 6316086 /\ allocated s < 10 * 1000 * 1000.
Proof.
  intros lib opts er ser cod chunk src w s Hl Hr H Hs.
  pose proof (allocated_bound _ _ _ _ (enc_pipe _ _ _ _ _ _ Hl Hr H) Hs) as B. rewrite codec_capacity in B.
  destruct (C16_generated_chunk_sizes_are_valid _ _ _ _ _ _ Hr H) as (C & _). lia.
Qed.
Print Assumptions C79_encrypting_takes_less_than_10_megabytes.

(** The same holds when such a file is decrypted, even if what follows the header has been changed ([src]
    is arbitrary). *)
Theorem C79_decrypting_takes_less_than_10_megabytes :
  forall lib opts er ser cod chunk D cod' chunk' src w s,
    lib_ok lib -> random_ok er -> wf_cred (expression opts) ->
    encrypt_header lib opts er = Ok (ser, cod, chunk) -> lenN ser < 2 ^ 64 ->
    Forall (decryption_cred (co_cs cod)) D ->
    no_accident (co_cs cod) (ephemeral cod er) D (leaves (expression opts)) (header_keys ser) ->
    decrypt_header lib ser D = Ok (cod', chunk') ->
    steps (codec_pipe cod' (N.to_nat chunk')) (start src w) s ->
    allocated s <= 6316086 /\ allocated s < 10 * 1000 * 1000.
Proof.
  intros lib opts er ser cod chunk D cod' chunk' src w s Hl Hr Hw H Hn HD Ha Hd Hs.
  pose proof (allocated_bound _ _ _ _ (dec_codec_ok lib Hl _ _ _ _ Hd) Hs) as B. rewrite codec_capacity in B.
  destruct (C16_generated_chunk_sizes_are_valid _ _ _ _ _ _ Hr H) as (C & _).
  destruct (header_round lib opts er ser cod chunk D Hl Hr Hw H Hn HD Ha) as [[E _]|[E _]]; rewrite E in Hd; [|discriminate].
  injection Hd as _ <-. lia.
Qed.
Print Assumptions C79_decrypting_takes_less_than_10_megabytes.

(** For a header of any origin that the credentials open there is a bound, but it is six gigabytes. *)
Theorem C79_decrypting_is_bounded :
  forall lib ser D cod chunk src w s,
    lib_ok lib -> decrypt_header lib ser D = Ok (cod, chunk) ->
    steps (codec_pipe cod (N.to_nat chunk)) (start src w) s ->
    allocated s <= 6 * (1024 * 1024 * 1024) + 102.
Proof.
  intros lib ser D cod chunk src w s Hl Hd Hs.
  pose proof (allocated_bound _ _ _ _ (dec_codec_ok lib Hl _ _ _ _ Hd) Hs) as B. rewrite codec_capacity in B.
  destruct (C16_decryption_refuses_invalid_chunk_sizes _ _ _ _ _ Hd) as (C & _). lia.
Qed.
Print Assumptions C79_decrypting_is_bounded.

(** The buffers are allocated before a byte of the data is read or authenticated: whatever the chunk size
    in the header, the whole amount is in use after six actions of the calling thread, while the input
    and the output have not been touched. *)
Theorem C79_buffers_are_allocated_first :
  forall cod chunk src w, exists s,
    steps (codec_pipe cod (N.to_nat chunk)) (start src w) s /\ s_src s = src /\ s_sink s = w /\
    allocated s = 6 * (chunk + 17).
Proof.
  intros cod chunk src w. destruct (six_buffers (codec_pipe cod (N.to_nat chunk)) src w) as (s & Hs & R1 & R2 & E).
  exists s. rewrite codec_capacity in E. auto.
Qed.
Print Assumptions C79_buffers_are_allocated_first.

(** A file made by someone who knows how to encrypt for these credentials (a public key is enough) makes
    decryption take six gigabytes, though it may be no longer than its header. *)
Definition big_ser : bytes := with_protected (mkProtected 1 (ephemeral ex_codec ex_random) (1024 * 1024 * 1024)).

Theorem C79_less_than_10_megabytes_refuted :
  exists lib ser D cod chunk w s,
    lib_ok lib /\ lenN ser < 1000 /\ decrypt_header lib ser D = Ok (cod, chunk) /\
    steps (codec_pipe cod (N.to_nat chunk)) (start [] w) s /\
    6 * (1024 * 1024 * 1024) < allocated s.
Proof.
  set (c := mkCodec toy_cs (co_key ex_codec) (cs_hash toy_cs big_ser) false). set (w := mkSink [] None true true).
  destruct (C79_buffers_are_allocated_first c (1024 * 1024 * 1024) [] w) as (s & Hs & _ & _ & E).
  exists toy_lib, big_ser, ex_D, c, (1024 * 1024 * 1024), w, s.
  split; [exact toy_lib_ok|]. split; [vm_compute; reflexivity|]. split; [vm_compute; reflexivity|].
  split; [exact Hs|]. rewrite E. reflexivity.
Qed.
Print Assumptions C79_less_than_10_megabytes_refuted.

(** [ex_opts] is encrypted with chunks of 1044520 bytes; its buffers together take 6267222 bytes. *)
Example C79_case : exists s,
  steps (codec_pipe ex_codec (N.to_nat 1044520)) (start [] (mkSink [] None true true)) s /\ allocated s = 6267222.
Proof.
  destruct (C79_buffers_are_allocated_first ex_codec 1044520 [] (mkSink [] None true true)) as (s & Hs & _ & _ & E).
  exists s. split; [exact Hs|]. rewrite E. reflexivity.
Qed.

(** The total size of the buffers: lemmas for PropMemory.v. *)
From Coq.Strings Require Import Byte String.
From Coq Require Import List NArith Bool Lia Arith.
From Verif Require Import Base BaseFacts Errors Io Crypto Proto HeaderCrypto HeaderCryptoProofs2 CredSpec StreamCrypto Pipeline
  PipelineSpec FileCrypto StreamProofs ConvProofs PropPipeline PropHeader MemorySpec.
Import ListNotations.
Local Open Scope N_scope.

Lemma sum_caps l k : Forall (fun c => ck_cap c = k) l ->
  fold_right (fun c n => N.of_nat (ck_cap c) + n) 0 l = lenN l * N.of_nat k.
Proof.
  unfold lenN. induction 1 as [|c l E H IH]; [reflexivity|]. cbn [fold_right length]. rewrite IH, E. lia.
Qed.

Lemma allocated_bound p src w s : pipe_ok p -> steps p (start src w) s -> allocated s <= 6 * N.of_nat (buffer_capacity p).
Proof.
  intros Hp Hs. destruct (C25_memory_is_bounded p src w s Hp Hs) as (A & _ & _ & F). unfold allocated.
  rewrite (sum_caps _ (buffer_capacity p)).
  - apply N.mul_le_mono_r. unfold lenN. lia.
  - eapply Forall_impl; [|exact F]. now intros c [E _].
Qed.

(** After six actions of the calling thread all six buffers exist. *)
Lemma six_buffers p src w : exists s, steps p (start src w) s /\ s_src s = src /\ s_sink s = w /\ allocated s = 6 * N.of_nat (buffer_capacity p).
Proof.
  set (c := fun i => mkChunk (firstn (input_buffer_size p) (repeat x00 (buffer_capacity p))) (buffer_capacity p) false i).
  set (st := fun l k i => mkPstate src (RWait None) l [] CWait [] WWait w [] (MInit k) i []).
  exists (st [c 0; c 1; c 2; c 3; c 4; c 5] 0%nat 6). split.
  - apply (StepsTrans p _ (st [c 0] 5%nat 1)); [apply StepMain; reflexivity|].
    apply (StepsTrans p _ (st [c 0; c 1] 4%nat 2)); [apply StepMain; reflexivity|].
    apply (StepsTrans p _ (st [c 0; c 1; c 2] 3%nat 3)); [apply StepMain; reflexivity|].
    apply (StepsTrans p _ (st [c 0; c 1; c 2; c 3] 2%nat 4)); [apply StepMain; reflexivity|].
    apply (StepsTrans p _ (st [c 0; c 1; c 2; c 3; c 4] 1%nat 5)); [apply StepMain; reflexivity|].
    apply (StepsTrans p _ (st [c 0; c 1; c 2; c 3; c 4; c 5] 0%nat 6)); [apply StepMain; reflexivity|].
    apply StepsRefl.
  - split; [reflexivity|]. split; [reflexivity|]. unfold allocated. rewrite (sum_caps _ (buffer_capacity p)); [reflexivity|]. cbn. repeat constructor.
Qed.

Lemma codec_capacity cod chunk : N.of_nat (buffer_capacity (codec_pipe cod (N.to_nat chunk))) = chunk + 17.
Proof.
  unfold buffer_capacity. cbn [p_chunk_size p_in_asize p_out_asize codec_pipe]. unfold input_asize, output_asize, AEAD_MAC_LEN.
  destruct (co_encrypting cod); lia.
Qed.

Lemma enc_pipe lib opts er ser cod chunk : lib_ok lib -> random_ok er -> encrypt_header lib opts er = Ok (ser, cod, chunk) ->
  pipe_ok (codec_pipe cod (N.to_nat chunk)).
Proof.
  intros Hl Hr H. destruct (C16_generated_chunk_sizes_are_valid _ _ _ _ _ _ Hr H) as (B & _).
  destruct (encrypt_header_inv _ _ _ _ _ _ H) as (cs & t & l & st & Hcs & _ & _ & _ & Hc & _).
  apply codec_pipe_ok.
  - rewrite Hc. eapply cryptosys_ok; eassumption.
  - rewrite N2Nat.id. unfold two64. lia.
  - left. lia.
Qed.

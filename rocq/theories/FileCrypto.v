(** Model of the conversion of one stream, [src/commands/crypt.rs:47-68]: header, then data pipeline. *)
From Coq Require Import List NArith Bool.
From Coq.Strings Require Import Byte.
From Verif Require Import Base Shamir Errors Io Crypto HeaderIo HeaderCrypto StreamCrypto Pipeline.
Import ListNotations.

(** The pipeline parameters of a codec: stream_crypto.rs:37-72 as a [StreamConverter]. *)
Definition codec_pipe (cod : codec) (chunk_size : nat) : pipe :=
  mkPipe (convert_chunk cod) (input_asize cod) (output_asize cod) chunk_size.

(** [convert_stream p src w r w'] (stream_pipeline.rs:52-154): some schedule of the threads makes the
    call return [r] and leaves the sink as [w']. *)
Definition convert_stream (p : pipe) (src : source) (w : sink) (r : outcome err unit) (w' : sink) : Prop :=
  exists s, steps p (start src w) s /\ s_mn s = MRet r /\ s_sink s = w'.

(** crypt.rs:49-53 and 62-68 *)
Definition encrypt_stream (lib : crypto_lib) (opts : encrypt_options) (er : enc_random)
    (src : source) (w : sink) (r : outcome err unit) (w' : sink) : Prop :=
  match encrypt_header lib opts er with
  | Ok (file_header, cod, chunk_size) =>
      match write_header w file_header with
      | (Ok _, w1) => convert_stream (codec_pipe cod (N.to_nat chunk_size)) src w1 r w'
      | (Err e, w1) => r = Err e /\ w' = w1
      | (Panic, w1) => r = Panic /\ w' = w1
      end
  | Err e => r = Err e /\ w' = w
  | Panic => r = Panic /\ w' = w
  end.

(** crypt.rs:54-58 and 62-68 *)
Definition decrypt_stream (lib : crypto_lib) (credentials : list cred)
    (src : source) (w : sink) (r : outcome err unit) (w' : sink) : Prop :=
  match read_header src with
  | Ok (file_header, _, src') =>
      match decrypt_header lib file_header credentials with
      | Ok (cod, chunk_size) => convert_stream (codec_pipe cod (N.to_nat chunk_size)) src' w r w'
      | Err e => r = Err e /\ w' = w
      | Panic => r = Panic /\ w' = w
      end
  | Err e => r = Err e /\ w' = w
  | Panic => r = Panic /\ w' = w
  end.

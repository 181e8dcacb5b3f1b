(** Model of [src/stream_crypto.rs]: per-chunk authenticated encryption. *)
From Coq.Strings Require Import Byte String.
From Coq Require Import List NArith Bool.
From Verif Require Import Base Shamir Errors Crypto HeaderCrypto.
Import ListNotations.

(** stream_crypto.rs:11-12 [CHUNK_NONCE], [CHUNK_IDX_POS] and 50-51: "rych" followed by the chunk
    index as little-endian u64. *)
Definition CHUNK_NONCE : bytes := list_byte_of_string "rych########".
Definition CHUNK_IDX_POS : nat := AEAD_NONCE_LEN - 8.
Definition chunk_nonce (chunk_idx : N) : bytes := firstn CHUNK_IDX_POS CHUNK_NONCE ++ le_bytes 8 chunk_idx.

(** stream_crypto.rs:46-48: header hash followed by the last-chunk flag. *)
Definition chunk_ad (header_hash : bytes) (is_last : bool) : bytes :=
  header_hash ++ [if is_last then x01 else x00].

(** stream_crypto.rs:38-43 [get_chunk_config]: extra input and output bytes per chunk. *)
Definition input_asize (cod : codec) : nat := if co_encrypting cod then 0 else AEAD_MAC_LEN.
Definition output_asize (cod : codec) : nat := if co_encrypting cod then AEAD_MAC_LEN else 0.

(** stream_crypto.rs:45-72 [convert_chunk], applied to the chunk's buffer, last-chunk flag and index.
    A chunk shorter than the authentication tag panics when decrypting (line 56 in a debug build,
    line 57 in a release build). *)
Definition convert_chunk (cod : codec) (buffer : bytes) (is_last : bool) (chunk_idx : N)
  : outcome err bytes :=
  let authed_data := chunk_ad (co_header_hash cod) is_last in
  let nonce := chunk_nonce chunk_idx in
  if co_encrypting cod then
    let '(message, mac) := cs_aead_encrypt (co_cs cod) buffer authed_data (co_key cod) nonce in
    Ok (message ++ mac)
  else if Nat.ltb (length buffer) AEAD_MAC_LEN then Panic
  else
    let message_len := length buffer - AEAD_MAC_LEN in
    match cs_aead_decrypt (co_cs cod) (firstn message_len buffer) authed_data (co_key cod) nonce
            (skipn message_len buffer) with
    | Some message => Ok (firstn message_len message)
    | None => Err ECorrupt
    end.

(** The codec of the decrypting side (header_crypto.rs:492-497): same cipher, key and header hash. *)
Definition decrypting (cod : codec) : codec := mkCodec (co_cs cod) (co_key cod) (co_header_hash cod) false.

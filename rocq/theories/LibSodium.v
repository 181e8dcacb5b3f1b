(** Model of [src/crypto/libsodium.rs]: the wrapper around the C library.

    The C functions are an arbitrary record; memory is not modelled: a function that fills a buffer returns the
    content of the buffer, one that returns a status returns [None] for a status other than 0.  What is left in the
    buffers after a failure is not used by the callers and left out, and so is the wiping of buffers. *)
From Coq Require Import List NArith Bool.
From Coq.Strings Require Import Byte.
From Verif Require Import Base Errors Crypto HeaderCrypto.
Import ListNotations.

(** The functions imported at libsodium.rs:6-26. *)
Record sodium := {
  so_init_fails : bool;                                        (* sodium_init() == -1 *)
  so_aes_available : bool;                                     (* crypto_aead_aes256gcm_is_available() != 0 *)
  so_hash : bytes -> bytes;                                    (* crypto_hash, 64 bytes *)
  so_auth : bytes -> bytes -> bytes;                           (* crypto_auth: message, key *)
  so_chacha_encrypt : bytes -> bytes -> bytes -> bytes -> bytes * bytes;
                                                               (* .._chacha20poly1305_ietf_encrypt_detached: m, ad, nonce, key |-> c, mac *)
  so_chacha_decrypt : bytes -> bytes -> bytes -> bytes -> bytes -> option bytes;
                                                               (* .._chacha20poly1305_ietf_decrypt_detached: c, mac, ad, nonce, key *)
  so_aes_encrypt : bytes -> bytes -> bytes -> bytes -> bytes * bytes;
  so_aes_decrypt : bytes -> bytes -> bytes -> bytes -> bytes -> option bytes;
  so_chacha_max : N;                                           (* crypto_aead_chacha20poly1305_ietf_messagebytes_max *)
  so_aes_max : N;                                              (* crypto_aead_aes256gcm_messagebytes_max *)
  so_sign_keypair : bytes -> bytes * bytes;                    (* crypto_sign_keypair, with the random seed it draws *)
  so_pk_to_curve25519 : bytes -> option bytes;                 (* crypto_sign_ed25519_pk_to_curve25519 *)
  so_sk_to_curve25519 : bytes -> option bytes;                 (* crypto_sign_ed25519_sk_to_curve25519 *)
  so_box_beforenm : bytes -> bytes -> option bytes;            (* crypto_box_beforenm: curve25519 public, secret *)
  so_box_afternm : bytes -> bytes -> bytes -> bytes * bytes;   (* crypto_box_detached_afternm: m, nonce, key *)
  so_box_open_afternm : bytes -> bytes -> bytes -> bytes -> option bytes;
                                                               (* crypto_box_open_detached_afternm: c, mac, nonce, key *)
  so_pwhash : N -> bytes -> bytes -> option bytes;             (* crypto_pwhash: output length, password, salt; with the limits of libsodium.rs:362-371 *)
  so_sign_detached : bytes -> bytes -> bytes;                  (* crypto_sign_detached: message, private key *)
  so_sign_verify : bytes -> bytes -> bytes -> bool             (* crypto_sign_verify_detached == 0: signature, message, public key *)
}.

Section WithSodium.
Variable so : sodium.

(** libsodium.rs:92-105: the first 32 of 64 bytes. *)
Definition sodium_hash (message : bytes) : bytes := firstn HASH_OUTPUT_LEN (so_hash so message).

(** libsodium.rs:142-196 *)
Definition sodium_aead_encrypt (a : alg) (message additional_data key nonce : bytes) : bytes * bytes :=
  match a with
  | ChaCha20Poly1305Ietf => so_chacha_encrypt so message additional_data nonce key
  | AES256GCM => so_aes_encrypt so message additional_data nonce key
  end.
(** libsodium.rs:198-240 *)
Definition sodium_aead_decrypt (a : alg) (message additional_data key nonce mac : bytes) : option bytes :=
  match a with
  | ChaCha20Poly1305Ietf => so_chacha_decrypt so message mac additional_data nonce key
  | AES256GCM => so_aes_decrypt so message mac additional_data nonce key
  end.
(** libsodium.rs:242-249 *)
Definition sodium_aead_max_message_size (a : alg) : N :=
  match a with ChaCha20Poly1305Ietf => so_chacha_max so | AES256GCM => so_aes_max so end.

(** libsodium.rs:384-421 *)
Definition sodium_beforenm (public_key private_key : bytes) : option bytes :=
  match so_pk_to_curve25519 so public_key with
  | None => None
  | Some curve25519_pk =>
      match so_sk_to_curve25519 so private_key with
      | None => None
      | Some curve25519_sk => so_box_beforenm so curve25519_pk curve25519_sk
      end
  end.

(** libsodium.rs:356-375.  [assert_eq!(res, 0)] panics if the derivation fails, for lack of memory or because the
    password has 4 GiB; as [cs_kdf] is total this model gives an empty key then. *)
Definition sodium_kdf (password salt : bytes) : bytes :=
  match so_pwhash so 32 password salt with Some output => output | None => [] end.

(** libsodium.rs:321-333 and 334-354, which nothing in rypt calls. *)
Definition sodium_sign (message private_key : bytes) : bytes := so_sign_detached so message private_key.
Definition sodium_verify (message public_key signature : bytes) : bool := so_sign_verify so signature message public_key.

(** libsodium.rs:91-380: the implementation of the trait. *)
Definition sodium_cryptosys (a : alg) : cryptosys := {|
  cs_hash := sodium_hash;
  cs_hmac := so_auth so;                                       (* libsodium.rs:107-120 *)
  cs_aead_encrypt := sodium_aead_encrypt a;
  cs_aead_decrypt := sodium_aead_decrypt a;
  cs_keypair := so_sign_keypair so;                            (* libsodium.rs:251-259 *)
  cs_beforenm := sodium_beforenm;
  cs_box_seal m n k := so_box_afternm so m n k;                (* libsodium.rs:278-288 *)
  cs_box_open c n k mac := so_box_open_afternm so c mac n k;   (* libsodium.rs:304-318 *)
  cs_kdf := sodium_kdf
|}.

(** libsodium.rs:61-77 and crypto/mod.rs:220-224; which of the two errors it is does not matter to the callers. *)
Definition sodium_lib : crypto_lib := fun a =>
  if so_init_fails so then None
  else match a with
       | AES256GCM => if so_aes_available so then Some (sodium_cryptosys a) else None
       | ChaCha20Poly1305Ietf => Some (sodium_cryptosys a)
       end.
End WithSodium.

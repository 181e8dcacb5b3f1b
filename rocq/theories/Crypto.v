(** Model of the [CryptoSystem] interface ([src/crypto/mod.rs], [src/crypto/libsodium.rs]).

    libsodium itself is not modelled: a crypto system is an arbitrary record of functions.  What the
    theorems need from it is the explicit predicate [crypto_ok] (lengths, and decryption inverts
    encryption); no secrecy or unforgeability is assumed. *)
From Coq Require Import List NArith Bool.
From Coq.Strings Require Import Byte.
From Verif Require Import Base Shamir Errors.
Import ListNotations.

(** crypto/mod.rs:24-61 *)
Definition HASH_OUTPUT_LEN : nat := 32.
Definition AEAD_KEY_LEN : nat := 32.
Definition AEAD_NONCE_LEN : nat := 12.
Definition AEAD_MAC_LEN : nat := 16.
Definition PUBLIC_KEY_LEN : nat := 32.
Definition PRIVATE_KEY_LEN : nat := 64.
Definition BOX_NONCE_LEN : nat := 24.
Definition BOX_MAC_LEN : nat := 16.
Definition KDF_SALT_LEN : nat := 16.

(** crypto/mod.rs:84-145 trait [CryptoSystem], functions used by rypt.  In-place functions return the
    new buffer.  [sign]/[verify] are never called and are left out.  The public-key box is modelled
    as in libsodium.rs:261-319, 384-421: key agreement [cs_beforenm] ([None]: invalid key pair)
    followed by authenticated encryption under the agreed key. *)
Record cryptosys := {
  cs_hash : bytes -> bytes;                                   (* libsodium.rs:92-105 *)
  cs_hmac : bytes -> bytes -> bytes;                          (* message, key; libsodium.rs:107-120 *)
  cs_aead_encrypt : bytes -> bytes -> bytes -> bytes -> bytes * bytes;
                                                              (* message, ad, key, nonce |-> ciphertext, mac; :142-196 *)
  cs_aead_decrypt : bytes -> bytes -> bytes -> bytes -> bytes -> option bytes;
                                                              (* ciphertext, ad, key, nonce, mac; :198-240 *)
  cs_keypair : bytes -> bytes * bytes;                        (* random seed |-> public, private; :251-259 *)
  cs_beforenm : bytes -> bytes -> option bytes;               (* public, private |-> shared key; :384-421 *)
  cs_box_seal : bytes -> bytes -> bytes -> bytes * bytes;     (* message, nonce, shared key; :278-288 *)
  cs_box_open : bytes -> bytes -> bytes -> bytes -> option bytes;
                                                              (* ciphertext, nonce, shared key, mac; :304-318 *)
  cs_kdf : bytes -> bytes -> bytes                            (* password bytes, salt; :356-375 *)
}.

(** crypto/mod.rs:149-162 *)
Definition aead_encrypt_easy (cs : cryptosys) (plaintext key nonce : bytes) : bytes :=
  let '(message, mac) := cs_aead_encrypt cs plaintext [] key nonce in
  message ++ mac.

(** crypto/mod.rs:164-179 *)
Definition aead_decrypt_easy (cs : cryptosys) (ciphertext key nonce : bytes) : option bytes :=
  if Nat.ltb (length ciphertext) AEAD_MAC_LEN then None
  else
    let plaintext_len := length ciphertext - AEAD_MAC_LEN in
    cs_aead_decrypt cs (firstn plaintext_len ciphertext) [] key nonce (skipn plaintext_len ciphertext).

(** crypto/mod.rs:181-199 with libsodium.rs:261-290; [None] is InvalidPublicPrivateKeyPair. *)
Definition box_encrypt_easy (cs : cryptosys) (plaintext public_key private_key nonce : bytes)
  : option bytes :=
  match cs_beforenm cs public_key private_key with
  | None => None
  | Some k => let '(message, mac) := cs_box_seal cs plaintext nonce k in Some (message ++ mac)
  end.

(** crypto/mod.rs:63-73, the two errors that box decryption can give. *)
Inductive crypto_error := InvalidCiphertext | InvalidPublicPrivateKeyPair.

(** crypto/mod.rs:201-217 with libsodium.rs:292-319. *)
Definition box_decrypt_easy (cs : cryptosys) (ciphertext public_key private_key nonce : bytes)
  : outcome crypto_error bytes :=
  if Nat.ltb (length ciphertext) BOX_MAC_LEN then Err InvalidCiphertext
  else
    let plaintext_len := length ciphertext - BOX_MAC_LEN in
    match cs_beforenm cs public_key private_key with
    | None => Err InvalidPublicPrivateKeyPair
    | Some k =>
        match cs_box_open cs (firstn plaintext_len ciphertext) nonce k (skipn plaintext_len ciphertext) with
        | Some m => Ok m
        | None => Err InvalidCiphertext
        end
    end.

(** What the theorems assume about libsodium. *)
Record crypto_ok (cs : cryptosys) : Prop := {
  hash_len : forall m, length (cs_hash cs m) = HASH_OUTPUT_LEN;
  hmac_len : forall m k, length (cs_hmac cs m k) = 32;
  kdf_len : forall p s, length (cs_kdf cs p s) = 32;
  aead_len : forall m ad k n, length (fst (cs_aead_encrypt cs m ad k n)) = length m;
  aead_mac_len : forall m ad k n, length (snd (cs_aead_encrypt cs m ad k n)) = AEAD_MAC_LEN;
  aead_inv : forall m ad k n,
    cs_aead_decrypt cs (fst (cs_aead_encrypt cs m ad k n)) ad k n (snd (cs_aead_encrypt cs m ad k n)) = Some m;
  aead_dec_len : forall c ad k n t m, cs_aead_decrypt cs c ad k n t = Some m -> length m = length c;
  box_len : forall m n k, length (fst (cs_box_seal cs m n k)) = length m;
  box_mac_len : forall m n k, length (snd (cs_box_seal cs m n k)) = BOX_MAC_LEN;
  box_inv : forall m n k,
    cs_box_open cs (fst (cs_box_seal cs m n k)) n k (snd (cs_box_seal cs m n k)) = Some m;
  keypair_pk_len : forall s, length (fst (cs_keypair cs s)) = PUBLIC_KEY_LEN;
  keypair_sk_len : forall s, length (snd (cs_keypair cs s)) = PRIVATE_KEY_LEN;
  keypair_layout : forall s, skipn 32 (snd (cs_keypair cs s)) = fst (cs_keypair cs s);
  agree : forall s1 s2, exists k,
    cs_beforenm cs (fst (cs_keypair cs s1)) (snd (cs_keypair cs s2)) = Some k /\
    cs_beforenm cs (fst (cs_keypair cs s2)) (snd (cs_keypair cs s1)) = Some k
}.

(** ** A toy crypto system, used only to show that [crypto_ok] is satisfiable and to run examples *)

(** Fixed-length checksum of a list of strings (no security whatsoever). *)
Definition pad_to (n : nat) (b : bytes) : bytes := firstn n (b ++ repeat x00 n).
Definition toy_sum (n : nat) (b : bytes) : bytes :=
  snd (fold_left
    (fun '(acc, st) x =>
       let acc := n2b (3 * b2n acc + 7 * b2n x + 1)%N in
       match st with
       | [] => (acc, [])
       | h :: st' => (acc, st' ++ [n2b (b2n h + b2n acc)%N])
       end) b (n2b (lenN b), repeat x01 n)).

Definition toy_cs : cryptosys := {|
  cs_hash m := pad_to 32 (toy_sum 32 m);
  cs_hmac m k := pad_to 32 (toy_sum 32 (k ++ m));
  cs_aead_encrypt m ad k n := (m, pad_to 16 (toy_sum 16 (k ++ n ++ ad ++ m)));
  cs_aead_decrypt c ad k n t := if bytes_eqb t (pad_to 16 (toy_sum 16 (k ++ n ++ ad ++ c))) then Some c else None;
  cs_keypair s := (pad_to 32 s, pad_to 32 (toy_sum 32 s) ++ pad_to 32 s);
  cs_beforenm pk sk := Some (map2 bxor (pad_to 32 pk) (pad_to 32 (skipn 32 sk)));
  cs_box_seal m n k := (m, pad_to 16 (toy_sum 16 (k ++ n ++ m)));
  cs_box_open c n k t := if bytes_eqb t (pad_to 16 (toy_sum 16 (k ++ n ++ c))) then Some c else None;
  cs_kdf p s := pad_to 32 (toy_sum 32 (s ++ p))
|}.

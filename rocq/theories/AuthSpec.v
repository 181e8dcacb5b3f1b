(** Specification vocabulary for authenticity: the authenticated encryptions an encryptor performs under
    one key, and what a forgery is.  The nonce and associated-data layouts are spelled out byte by byte. *)
From Coq Require Import List NArith Bool.
From Coq.Strings Require Import Byte.
From Verif Require Import Base Errors Io Crypto HeaderCrypto StreamSpec.
Import ListNotations.

(** One authenticated encryption: nonce, associated data, ciphertext with its tag. *)
Record sealed := mkSealed { se_nonce : bytes; se_ad : bytes; se_ct : bytes }.

(** "rych" and the index as eight little-endian bytes. *)
Definition nonce_of_chunk (i : nat) : bytes :=
  [x72; x79; x63; x68] ++
  map (fun k => n2b (N.of_nat i / 256 ^ N.of_nat k)) (seq 0 8).
(** The hash of the header, and whether this is the last chunk. *)
Definition ad_of_chunk (header_hash : bytes) (is_last : bool) : bytes :=
  header_hash ++ [if is_last then x01 else x00].

Definition seal (cs : cryptosys) (key nonce ad m : bytes) : sealed :=
  let '(ct, tag) := cs_aead_encrypt cs m ad key nonce in mkSealed nonce ad (ct ++ tag).

(** The key holder accepts [s]. *)
Definition accepted (cs : cryptosys) (key : bytes) (s : sealed) : Prop :=
  exists ct tag m, se_ct s = ct ++ tag /\ length tag = 16 /\ cs_aead_decrypt cs ct (se_ad s) key (se_nonce s) tag = Some m.

(** The encryptions that protect the data [m], cut into pieces of [c] bytes. *)
Definition sealed_data (cs : cryptosys) (key header_hash : bytes) (c : nat) (m : bytes) : list sealed :=
  map (fun ip => seal cs key (nonce_of_chunk (fst ip)) (ad_of_chunk header_hash (snd (snd ip))) (fst (snd ip)))
    (combine (seq 0 (length (chunks c m))) (flag_last (chunks c m))).

(** What the stream [src], cut into pieces of [n] bytes, presents to the key holder. *)
Definition presented (header_hash : bytes) (n : nat) (src : source) : list sealed :=
  map (fun ip => mkSealed (nonce_of_chunk (fst ip)) (ad_of_chunk header_hash (snd (snd ip))) (fst (snd ip)))
    (combine (seq 0 (length (input_chunks n src))) (input_chunks n src)).

(** A forgery: something presented to the key holder that is accepted though the encryptor never made
    it.  (Without "presented" the notion would be empty: the key holder accepts every encryption that
    the encryptor could have made.) *)
Definition forgery (cs : cryptosys) (key : bytes) (made shown : list sealed) : Prop :=
  exists s, In s shown /\ accepted cs key s /\ ~ In s made.

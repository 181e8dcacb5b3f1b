(** Opening a header as a program that asks the crypto library for every result: the functions of [HeaderCrypto] that
    open headers, written so that each use of the library is an explicit request.  [WorkProofs] proves that they compute
    what the functions of [HeaderCrypto] compute. *)
From Coq.Strings Require Import Byte String.
From Coq Require Import List NArith Bool.
From Verif Require Import Base Shamir Errors HeaderIo Crypto Proto HeaderCrypto.
Import ListNotations.
Local Open Scope N_scope.

(** Requests to the library, crypto/mod.rs:75-147 (trait [CryptoSystem]) as far as opening a header needs them. *)
Inductive request :=
| AskHash (message : bytes)                              (* libsodium.rs:92-105 *)
| AskHmac (message key : bytes)                          (* libsodium.rs:107-120 *)
| AskKdf (password salt : bytes)                         (* libsodium.rs:356-375 *)
| AskAeadOpen (ciphertext ad key nonce mac : bytes)      (* libsodium.rs:198-240 *)
| AskShared (public_key private_key : bytes)             (* libsodium.rs:384-421, the shared key of two key pairs *)
| AskBoxOpen (ciphertext nonce key mac : bytes).         (* libsodium.rs:291-319 *)

(** The answer of a library (crypto/mod.rs:220-224 chooses the algorithm); [None] is a failure. *)
Definition answer (lib : crypto_lib) (a : alg) (r : request) : option bytes :=
  match lib a with
  | None => None
  | Some cs =>
      match r with
      | AskHash m => Some (cs_hash cs m)
      | AskHmac m k => Some (cs_hmac cs m k)
      | AskKdf p s => Some (cs_kdf cs p s)
      | AskAeadOpen c ad k n t => cs_aead_decrypt cs c ad k n t
      | AskShared pk sk => cs_beforenm cs pk sk
      | AskBoxOpen c n k t => cs_box_open cs c n k t
      end
  end.

(** A program that gets at the library only by requests. *)
Inductive work (A : Type) : Type :=
| Done (r : outcome err A)
| Ask (a : alg) (r : request) (k : option bytes -> work A).
Arguments Done {A}. Arguments Ask {A}.

(** Sequencing ([?] on a [Fallible]), as [bind] in [Base]. *)
Fixpoint wbind {A B} (m : work A) (f : A -> work B) : work B :=
  match m with
  | Done (Ok a) => f a
  | Done (Err e) => Done (Err e)
  | Done Panic => Done Panic
  | Ask a r k => Ask a r (fun x => wbind (k x) f)
  end.
Local Notation "'let%' x ':=' m 'in' k" := (wbind m (fun x => k)) (at level 200, x pattern, m at level 100, k at level 200).

(** What it computes, and the requests it makes on the way, with a given library. *)
Fixpoint run {A} (lib : crypto_lib) (m : work A) : outcome err A :=
  match m with Done r => r | Ask a r k => run lib (k (answer lib a r)) end.
Fixpoint requests {A} (lib : crypto_lib) (m : work A) : list request :=
  match m with Done _ => [] | Ask a r k => r :: requests lib (k (answer lib a r)) end.

(** Requests that cannot fail (libsodium.rs:92-120, 356-375); a missing answer would be a panic. *)
Definition certain (a : alg) (r : request) : work bytes :=
  Ask a r (fun x => match x with Some b => Done (Ok b) | None => Done Panic end).

(** header_crypto.rs:67-89 *)
Definition w_recipient_secret_key (a : alg) (ephemeral_pk : bytes) (c : cred) : work bytes :=
  match c with
  | Password password =>
      let% h := certain a (AskHmac ephemeral_pk KDF_SALT_NONCE) in
      certain a (AskKdf password (firstn KDF_SALT_LEN h))
  | SymmetricKey secret_key => certain a (AskHmac (ephemeral_pk ++ secret_key) SYMMETRIC_SECRET_NONCE)
  | _ => Done Panic
  end.

(** crypto/mod.rs:164-179 *)
Definition w_aead_decrypt_easy (a : alg) (ciphertext key nonce : bytes) : work (option bytes) :=
  if Nat.ltb (length ciphertext) AEAD_MAC_LEN then Done (Ok None)
  else
    let plaintext_len := (length ciphertext - AEAD_MAC_LEN)%nat in
    Ask a (AskAeadOpen (firstn plaintext_len ciphertext) [] key nonce (skipn plaintext_len ciphertext)) (fun x => Done (Ok x)).

(** crypto/mod.rs:201-217 with libsodium.rs:291-319, and the treatment of its errors at header_crypto.rs:323-332. *)
Definition w_box_decrypt_easy (a : alg) (ciphertext public_key private_key nonce : bytes) : work (option bytes) :=
  if Nat.ltb (length ciphertext) BOX_MAC_LEN then Done (Ok None)
  else
    let plaintext_len := (length ciphertext - BOX_MAC_LEN)%nat in
    Ask a (AskShared public_key private_key) (fun x =>
      match x with
      | None => Done (Err EInvalidKeyPair)
      | Some k => Ask a (AskBoxOpen (firstn plaintext_len ciphertext) nonce k (skipn plaintext_len ciphertext)) (fun x => Done (Ok x))
      end).

(** header_crypto.rs:297 *)
Definition wdecryptor := bytes -> N -> work (option bytes).

(** header_crypto.rs:300-338: the key of a password or symmetric key is computed here, once. *)
Definition w_decryptor_from_credential (a : alg) (ephemeral_pk : bytes) (c : cred) : work wdecryptor :=
  match c with
  | Password _ | SymmetricKey _ =>
      let% secret_key := w_recipient_secret_key a ephemeral_pk c in
      Done (Ok (fun encrypted_key key_idx => w_aead_decrypt_easy a encrypted_key secret_key (recipient_secret_nonce key_idx)))
  | PublicKey _ => Done Panic
  | PrivateKey private_key =>
      Done (Ok (fun encrypted_key key_idx => w_box_decrypt_easy a encrypted_key ephemeral_pk private_key (recipient_box_nonce key_idx)))
  | Complex _ _ _ => Done Panic
  end.

(** header_crypto.rs:445-449, the [map] over the credentials. *)
Fixpoint w_decryptors (a : alg) (ephemeral_pk : bytes) (l : list cred) : work (list wdecryptor) :=
  match l with
  | [] => Done (Ok [])
  | c :: l =>
      let% d := w_decryptor_from_credential a ephemeral_pk c in
      let% ds := w_decryptors a ephemeral_pk l in
      Done (Ok (d :: ds))
  end.

(** header_crypto.rs:352-355 *)
Fixpoint w_try_decryptors (ds : list wdecryptor) (encrypted_key : bytes) (key_idx : N) : work (option bytes) :=
  match ds with
  | [] => Done (Ok None)
  | d :: ds =>
      let% r := d encrypted_key key_idx in
      match r with
      | Some k => Done (Ok (Some k))
      | None => w_try_decryptors ds encrypted_key key_idx
      end
  end.

(** The loop of header_crypto.rs:399-403, as [smap] in [HeaderCrypto]. *)
Definition w_smap {A B S} (f : A -> S -> work (B * S)) : list A -> S -> work (list B * S) :=
  fix go (l : list A) (s : S) : work (list B * S) :=
    match l with
    | [] => Done (Ok ([], s))
    | a :: l =>
        let% (b, s) := f a s in
        let% (bs, s) := go l s in
        Done (Ok (b :: bs, s))
    end.

(** header_crypto.rs:341-430, as [decrypt_key_data] in [HeaderCrypto]. *)
Fixpoint w_decrypt_key_data (ds : list wdecryptor) (d : kdata) (key_start_idx : N) {struct d} : work (option bytes * N) :=
  match d with
  | KNone => Done (Err ENoPayload)
  | KEnc encrypted_key =>
      let key_idx := key_start_idx in
      let% r := w_try_decryptors ds encrypted_key key_idx in
      Done (Ok (r, wrap32 (key_idx + 1)))
  | KComp threshold key_parts =>
      let% (decrypted, (key_idx, num_key_parts)) :=
        w_smap (fun part st =>
                let '(num, key_data) := part in
                let '(key_idx, key_part_idx) := st in
                let% (keydata_opt, key_idx) := w_decrypt_key_data ds key_data key_idx in
                let num_key_parts := N.max num 1 in
                let% l := Done (distribute_key_data keydata_opt num_key_parts key_part_idx) in
                Done (Ok (l, (key_idx, wrap64 (key_part_idx + num_key_parts)))))
             key_parts (key_start_idx, 0) in
      let% res := Done (recombine threshold (concat decrypted) num_key_parts) in
      Done (Ok (res, key_idx))
  end.

(** header_crypto.rs:53-65; [has] says which algorithms the library has. *)
Definition w_cryptosys_from_proto (has : alg -> bool) (family : option N) : outcome err alg :=
  match family with
  | Some a =>
      let* a := if a =? 1 then Ok ChaCha20Poly1305Ietf
                else if a =? 2 then Ok AES256GCM
                else Err EUnknownAlgorithm in
      if has a then Ok a else Err EHardwareUnsupported
  | None => Err EUnknownFamily
  end.

(** libsodium.rs:61-77: which algorithms a library has. *)
Definition available (lib : crypto_lib) (a : alg) : bool := match lib a with Some _ => true | None => false end.

(** header_crypto.rs:432-500; the result is what the codec is made of, and the chunk size. *)
Definition w_decrypt_header (has : alg -> bool) (serialized : bytes) (credentials : list cred)
  : work (alg * bytes * bytes * N) :=
  let% hd := Done (match decode_header serialized with Some h => Ok h | None => Err EHeaderDecode end) in
  let% a := Done (w_cryptosys_from_proto has (hd_family hd)) in
  let% _ := Done (ensure (Nat.eqb (length (hd_ephemeral_pk hd)) PUBLIC_KEY_LEN) EBadLength) in
  let ephemeral_pk := hd_ephemeral_pk hd in
  let% ds := w_decryptors a ephemeral_pk credentials in
  let% encrypted_payload_key :=
    Done (match hd_payload_key hd with Some k => Ok k | None => Err ENoPayloadKey end) in
  let% (key_opt, _) :=
    w_decrypt_key_data ds (KComp (fst encrypted_payload_key) (snd encrypted_payload_key)) 0 in
  let% payload_key :=
    Done (match key_opt with Some k => Ok k | None => Err EInsufficientCredentials end) in
  let% _ := Done (ensure (Nat.eqb (length payload_key) AEAD_KEY_LEN) EBadLength) in
  let% protected_opt := w_aead_decrypt_easy a (hd_protected hd) payload_key ENCRYPTED_HEADER_NONCE in
  let% protected :=
    Done (match protected_opt with Some p => Ok p | None => Err EInvalidCiphertext end) in
  let% protected :=
    Done (match decode_protected protected with Some p => Ok p | None => Err EProtectedDecode end) in
  let chunk_size := ph_chunk_size protected in
  let% _ := Done (check_chunk_size chunk_size) in
  let% _ :=
    Done (if ph_auth_type protected =? 1
          then ensure (bytes_eqb (ph_sender_pk protected) (hd_ephemeral_pk hd)) EWrongSenderPk
          else Err EUnknownSenderAuth) in
  let% header_hash := certain a (AskHash serialized) in
  Done (Ok (a, payload_key, header_hash, chunk_size)).

(** Model of [src/header_crypto.rs] and [src/credentials.rs]: building and opening the file header. *)
From Coq.Strings Require Import Byte String.
From Coq Require Import List NArith Bool.
From Verif Require Import Base Shamir Errors HeaderIo Crypto Proto.
Import ListNotations.
Local Open Scope N_scope.

(** Byte string literals [b"..."]. *)
Definition bstr (s : String.string) : bytes := list_byte_of_string s.

(** ** Constants, header_crypto.rs:28-39 *)

Definition DEFAULT_CHUNK_SIZE : N := 1048576.
Definition DEFAULT_CHUNK_SIZE_UNCERTAINTY : N := 4096.
Definition MAX_CHUNK_SIZE : N := 1073741824.
Definition ENCRYPTED_HEADER_NONCE : bytes := bstr "rypt enc hdr".
Definition KDF_SALT_NONCE : bytes := bstr "rypt kdf salt" ++ repeat x00 19.
Definition SYMMETRIC_SECRET_NONCE : bytes := bstr "rypt symmetric secret" ++ repeat x00 11.
Definition RECIPIENT_NONCE : bytes := bstr "ryptrecp####".
Definition RECIP_IDX_POS : nat := AEAD_NONCE_LEN - 4.
Definition RECIPIENT_BOX_NONCE : bytes := bstr "rypt recipient" ++ repeat x00 6 ++ bstr "####".
Definition RECIP_BOX_IDX_POS : nat := BOX_NONCE_LEN - 4.

(** ** Credentials, credentials.rs:4-18.  A password is its UTF-8 bytes. *)

Inductive cred :=
| Password (p : bytes)
| SymmetricKey (k : bytes)
| PublicKey (k : bytes)
| PrivateKey (k : bytes)
| Complex (sub_creds : list (N * cred)) (num_shares threshold : N).

(** ** Choice of the crypto system *)

Inductive alg := ChaCha20Poly1305Ietf | AES256GCM.

(** crypto/mod.rs:220-224 and libsodium.rs:61-77: [None] if the library cannot be initialised or the
    hardware lacks AES support.  The same library serves encryption and decryption. *)
Definition crypto_lib := alg -> option cryptosys.

(** header_crypto.rs:42-50 (enum values from header.proto:26-31) *)
Definition cryptofamily_from_opts (fast_aead_algorithm : bool) : option N :=
  Some (if fast_aead_algorithm then 2 else 1).

(** header_crypto.rs:53-65 *)
Definition cryptosys_from_proto (lib : crypto_lib) (family : option N) : outcome err cryptosys :=
  match family with
  | Some a =>
      let* a := if a =? 1 then Ok ChaCha20Poly1305Ietf
                else if a =? 2 then Ok AES256GCM
                else Err EUnknownAlgorithm in
      match lib a with Some cs => Ok cs | None => Err EHardwareUnsupported end
  | None => Err EUnknownFamily
  end.

(** ** Recipient keys and nonces *)

(** header_crypto.rs:67-89 *)
Definition recipient_secret_key (cs : cryptosys) (ephemeral_pk : bytes) (c : cred) : outcome err bytes :=
  match c with
  | Password password =>
      let salt := firstn KDF_SALT_LEN (cs_hmac cs ephemeral_pk KDF_SALT_NONCE) in
      Ok (cs_kdf cs password salt)
  | SymmetricKey secret_key => Ok (cs_hmac cs (ephemeral_pk ++ secret_key) SYMMETRIC_SECRET_NONCE)
  | _ => Panic
  end.

(** header_crypto.rs:91-95 *)
Definition recipient_secret_nonce (recipient_idx : N) : bytes :=
  firstn RECIP_IDX_POS RECIPIENT_NONCE ++ le_bytes 4 recipient_idx.

(** header_crypto.rs:97-101 *)
Definition recipient_box_nonce (recipient_idx : N) : bytes :=
  firstn RECIP_BOX_IDX_POS RECIPIENT_BOX_NONCE ++ le_bytes 4 recipient_idx.

(** ** Key splitting *)

(** util.rs:125-128 *)
Definition xor_vec {E} (a b : bytes) : outcome E bytes :=
  if Nat.eqb (length a) (length b) then Ok (map2 bxor a b) else Panic.

(** header_crypto.rs:125-131: [rounds] random vectors, each xored into the last part. *)
Fixpoint xor_split (rounds : nat) (xor_part : bytes) (r : rng) : outcome err (list bytes * rng) :=
  match rounds with
  | O => Ok ([xor_part], r)
  | S rounds =>
      let '(v, r) := rng_fill (length xor_part) r in
      let* xor_part := xor_vec xor_part v in
      let* (parts, r) := xor_split rounds xor_part r in
      Ok (v :: parts, r)
  end.

(** header_crypto.rs:103-137.  The product [key.len() * num_parts] wraps in a release build; if a
    wrapped product passes the check the allocation of the parts cannot succeed, which is [Panic]. *)
Definition split_key_into_key_parts (key : bytes) (num_parts threshold : N) (r : rng)
  : outcome err (list bytes * rng) :=
  let* _ := ensure (negb (threshold =? 0)) EZeroThreshold in
  let* _ := ensure (threshold <=? num_parts) EThresholdTooLarge in
  let* _ := ensure (wrap64 (lenN key * num_parts) <? MAX_HEADER_LEN) EKeySchemeTooLarge in
  if threshold =? 1 then
    let* _ := assert (lenN key * num_parts <? two64) in
    Ok (repeat key (N.to_nat num_parts), r)
  else if threshold =? num_parts then
    let* _ := assert (lenN key * num_parts <? two64) in
    xor_split (N.to_nat num_parts - 1) key r
  else
    map_err EShare (create_secret_shares key num_parts threshold r).

(** header_crypto.rs:141-143 *)
Definition one_to_zero (val : N) : N := if val =? 1 then 0 else val.

(** Sequential map with state and early exit: [iter().map(..).collect::<Result<Vec<_>, _>>()] with a
    closure that updates captured variables. *)
Definition smap {A B S E} (f : A -> S -> outcome E (B * S)) : list A -> S -> outcome E (list B * S) :=
  fix go (l : list A) (s : S) : outcome E (list B * S) :=
    match l with
    | [] => Ok ([], s)
    | a :: l =>
        let* (b, s) := f a s in
        let* (bs, s) := go l s in
        Ok (b :: bs, s)
    end.

(** [slice.split_at(n)] panics when [n] exceeds the length. *)
Definition split_at {E A} (n : N) (l : list A) : outcome E (list A * list A) :=
  if n <=? lenN l then Ok (firstn (N.to_nat n) l, skipn (N.to_nat n) l) else Panic.

(** ** Encryption side *)

(** header_crypto.rs:165-205, the [key_data] of one credential; the case [Complex] is
    [encrypt_composite_key] (header_crypto.rs:145-218) itself.  [key_idx] is a u32 counter that
    wraps in a release build.  [CryptoSystemRng] draws from one global generator, here the state [r]. *)
Fixpoint encrypt_key_data (cs : cryptosys) (ephemeral_pk ephemeral_sk : bytes) (c : cred)
    (key_part : bytes) (key_idx : N) (r : rng) {struct c} : outcome err (kdata * (N * rng)) :=
  match c with
  | Password _ | SymmetricKey _ =>
      let* secret_key := recipient_secret_key cs ephemeral_pk c in
      let nonce := recipient_secret_nonce key_idx in
      Ok (KEnc (aead_encrypt_easy cs key_part secret_key nonce), (wrap32 (key_idx + 1), r))
  | PublicKey public_key =>
      let nonce := recipient_box_nonce key_idx in
      match box_encrypt_easy cs key_part public_key ephemeral_sk nonce with
      | Some ct => Ok (KEnc ct, (wrap32 (key_idx + 1), r))
      | None => Err EInvalidKeyPair
      end
  | PrivateKey _ => Panic
  | Complex sub_creds num_shares threshold =>
      let* (key_parts, r) := split_key_into_key_parts key_part num_shares threshold r in
      let* (encrypted_key_parts, (_, (key_idx, r))) :=
        smap (fun sub st =>
                let '(num_shares, credential) := sub in
                let '(key_parts, (key_idx, r)) := st in
                let* (key_part, key_parts) := split_at num_shares key_parts in
                let* (key_data, (key_idx, r)) :=
                  encrypt_key_data cs ephemeral_pk ephemeral_sk credential (concat key_part) key_idx r in
                Ok ((one_to_zero num_shares, key_data), (key_parts, (key_idx, r))))
             sub_creds (key_parts, (key_idx, r)) in
      Ok (KComp (one_to_zero threshold) encrypted_key_parts, (key_idx, r))
  end.

(** header_crypto.rs:220-230 *)
Definition check_chunk_size (chunk_size : N) : outcome err unit :=
  let* _ := ensure (chunk_size <=? MAX_CHUNK_SIZE) EChunkTooLarge in
  ensure (chunk_size mod FILE_ALIGNMENT =? 0) EChunkMisaligned.

(** Random choices made by one encryption: [gen_range(0, 1024)], [aead_keygen], the seed of
    [generate_keypair], and the bytes used for splitting keys. *)
Record enc_random := mkRandom {
  er_chunk : N;
  er_payload_key : bytes;
  er_seed : bytes;
  er_shares : rng
}.

(** stream_crypto.rs:14-35 [CryptoSystemAEADCodec]. *)
Record codec := mkCodec {
  co_cs : cryptosys;
  co_key : bytes;
  co_header_hash : bytes;
  co_encrypting : bool
}.

(** commands/mod.rs:22-31: [EncryptOptions] is a top-level group and the fast flag. *)
Record encrypt_options := mkEncryptOptions {
  eo_sub_creds : list (N * cred);
  eo_num_shares : N;
  eo_threshold : N;
  eo_fast : bool
}.

(** header_crypto.rs:239-242 *)
Definition chosen_chunk_size (er : enc_random) : N :=
  DEFAULT_CHUNK_SIZE - DEFAULT_CHUNK_SIZE_UNCERTAINTY + er_chunk er * FILE_ALIGNMENT.

(** header_crypto.rs:232-289 *)
Definition encrypt_header (lib : crypto_lib) (opts : encrypt_options) (er : enc_random)
  : outcome err (bytes * codec * N) :=
  let family := cryptofamily_from_opts (eo_fast opts) in
  let* cs := cryptosys_from_proto lib family in
  let chunk_size := chosen_chunk_size er in
  let* _ := check_chunk_size chunk_size in
  let payload_key := er_payload_key er in
  let '(ephemeral_pk, ephemeral_sk) := cs_keypair cs (er_seed er) in
  let protected := mkProtected 1 ephemeral_pk chunk_size in
  let protected_ct := aead_encrypt_easy cs (encode_protected protected) payload_key ENCRYPTED_HEADER_NONCE in
  let* (kd, _) := encrypt_key_data cs ephemeral_pk ephemeral_sk
                    (Complex (eo_sub_creds opts) (eo_num_shares opts) (eo_threshold opts))
                    payload_key 0 (er_shares er) in
  let payload_key_msg := match kd with KComp t parts => Some (t, parts) | _ => None end in
  let serialized := encode_header (mkHeader family ephemeral_pk payload_key_msg protected_ct) in
  let header_hash := cs_hash cs serialized in
  Ok (serialized, mkCodec cs payload_key header_hash true, chunk_size).

(** ** Decryption side *)

(** header_crypto.rs:297 [DecryptorFn]: ciphertext and key index to an optional plaintext. *)
Definition decryptor := bytes -> N -> outcome err (option bytes).

(** header_crypto.rs:300-338 *)
Definition decryptor_from_credential (cs : cryptosys) (ephemeral_pk : bytes) (c : cred)
  : outcome err decryptor :=
  match c with
  | Password _ | SymmetricKey _ =>
      let* secret_key := recipient_secret_key cs ephemeral_pk c in
      Ok (fun encrypted_key key_idx =>
            Ok (aead_decrypt_easy cs encrypted_key secret_key (recipient_secret_nonce key_idx)))
  | PublicKey _ => Panic
  | PrivateKey private_key =>
      Ok (fun encrypted_key key_idx =>
            match box_decrypt_easy cs encrypted_key ephemeral_pk private_key
                                   (recipient_box_nonce key_idx) with
            | Ok res => Ok (Some res)
            | Err InvalidCiphertext => Ok None
            | Err InvalidPublicPrivateKeyPair => Err EInvalidKeyPair
            | Panic => Panic
            end)
  | Complex _ _ _ => Panic
  end.

(** header_crypto.rs:352-355: the first decryptor that opens the ciphertext or fails hard. *)
Fixpoint try_decryptors (ds : list decryptor) (encrypted_key : bytes) (key_idx : N)
  : outcome err (option bytes) :=
  match ds with
  | [] => Ok None
  | d :: ds =>
      let* r := d encrypted_key key_idx in
      match r with
      | Some k => Ok (Some k)
      | None => try_decryptors ds encrypted_key key_idx
      end
  end.

(** [slice.chunks_exact(n)] for [n > 0]; [count] is the number of chunks. *)
Fixpoint chunks_exact (count n : nat) (b : bytes) : list bytes :=
  match count with
  | O => []
  | S count => firstn n b :: chunks_exact count n (skipn n b)
  end.

(** header_crypto.rs:366-386: distributing decrypted key data over key part indices. *)
Definition distribute_key_data (keydata_opt : option bytes) (num_key_parts key_part_idx : N)
  : outcome err (list (N * bytes)) :=
  match keydata_opt with
  | None => Ok []
  | Some key_data =>
      if num_key_parts =? 1 then Ok [(key_part_idx, key_data)]
      else
        let* _ := ensure (lenN key_data mod num_key_parts =? 0) EKeyDataLength in
        let key_len := lenN key_data / num_key_parts in
        (* chunks_exact panics when the chunk size is zero *)
        let* _ := assert (negb (key_len =? 0)) in
        let chunks := chunks_exact (N.to_nat num_key_parts) (N.to_nat key_len) key_data in
        Ok (combine (map (fun i => wrap64 (N.of_nat i + key_part_idx)) (seq 0 (length chunks))) chunks)
  end.

(** header_crypto.rs:414-417: xor of all key parts into a zero vector. *)
Fixpoint xor_all (key : bytes) (parts : list (N * bytes)) : outcome err bytes :=
  match parts with
  | [] => Ok key
  | (_, key_part) :: parts => let* key := xor_vec key key_part in xor_all key parts
  end.

(** header_crypto.rs:405-429: threshold logic. *)
Definition recombine (threshold : N) (parts : list (N * bytes)) (num_key_parts : N)
  : outcome err (option bytes) :=
  if threshold <=? 1 then
    Ok (match rev parts with [] => None | (_, key) :: _ => Some key end)
  else if threshold =? num_key_parts then
    if lenN parts =? threshold then
      match parts with
      | [] => Panic
      | (_, p0) :: _ =>
          let* key := xor_all (repeat x00 (length p0)) parts in
          Ok (Some key)
      end
    else Ok None
  else
    match recover_secret parts threshold with
    | Ok key => Ok (Some key)
    | Err (NotEnoughShares _ _) => Ok None
    | Err e => Err (EShare e)
    | Panic => Panic
    end.

(** header_crypto.rs:347-361 (opening one [key_data]); the case [KComp] is [decrypt_composite_key]
    (header_crypto.rs:390-430) with the loop body [decrypt_key_parts] (341-387) inlined. *)
Fixpoint decrypt_key_data (ds : list decryptor) (d : kdata) (key_start_idx : N) {struct d}
  : outcome err (option bytes * N) :=
  match d with
  | KNone => Err ENoPayload
  | KEnc encrypted_key =>
      let key_idx := key_start_idx in
      let* r := try_decryptors ds encrypted_key key_idx in
      Ok (r, wrap32 (key_idx + 1))
  | KComp threshold key_parts =>
      let* (decrypted, (key_idx, num_key_parts)) :=
        smap (fun part st =>
                let '(num, key_data) := part in
                let '(key_idx, key_part_idx) := st in
                let* (keydata_opt, key_idx) := decrypt_key_data ds key_data key_idx in
                let num_key_parts := N.max num 1 in
                let* l := distribute_key_data keydata_opt num_key_parts key_part_idx in
                Ok (l, (key_idx, wrap64 (key_part_idx + num_key_parts))))
             key_parts (key_start_idx, 0) in
      let* res := recombine threshold (concat decrypted) num_key_parts in
      Ok (res, key_idx)
  end.

(** header_crypto.rs:432-500 *)
Definition decrypt_header (lib : crypto_lib) (serialized : bytes) (credentials : list cred)
  : outcome err (codec * N) :=
  let* hd := match decode_header serialized with Some h => Ok h | None => Err EHeaderDecode end in
  let* cs := cryptosys_from_proto lib (hd_family hd) in
  let* _ := ensure (Nat.eqb (length (hd_ephemeral_pk hd)) PUBLIC_KEY_LEN) EBadLength in
  let ephemeral_pk := hd_ephemeral_pk hd in
  let* ds := map_out (decryptor_from_credential cs ephemeral_pk) credentials in
  let* encrypted_payload_key :=
    match hd_payload_key hd with Some k => Ok k | None => Err ENoPayloadKey end in
  let* (key_opt, _) :=
    decrypt_key_data ds (KComp (fst encrypted_payload_key) (snd encrypted_payload_key)) 0 in
  let* payload_key :=
    match key_opt with Some k => Ok k | None => Err EInsufficientCredentials end in
  let* _ := ensure (Nat.eqb (length payload_key) AEAD_KEY_LEN) EBadLength in
  let* protected :=
    match aead_decrypt_easy cs (hd_protected hd) payload_key ENCRYPTED_HEADER_NONCE with
    | Some p => Ok p
    | None => Err EInvalidCiphertext
    end in
  let* protected :=
    match decode_protected protected with Some p => Ok p | None => Err EProtectedDecode end in
  let chunk_size := ph_chunk_size protected in
  let* _ := check_chunk_size chunk_size in
  let* _ :=
    if ph_auth_type protected =? 1
    then ensure (bytes_eqb (ph_sender_pk protected) (hd_ephemeral_pk hd)) EWrongSenderPk
    else Err EUnknownSenderAuth in
  let header_hash := cs_hash cs serialized in
  Ok (mkCodec cs payload_key header_hash false, chunk_size).

(** Model of the header messages ([src/proto/header.proto]) and of the protobuf encoding that the [prost]
    0.5 library (called at util.rs:119-123 and header_crypto.rs:437, 471) implements for them.
    prost is an external crate: this models its documented wire format as used for these messages. *)
From Coq Require Import List NArith Bool.
From Coq.Strings Require Import Byte.
From Verif Require Import Base.
Import ListNotations.
Local Open Scope N_scope.

(** ** Messages *)

(** header.proto:54-68, oneof [key_data] of [EncryptedKeyParts], together with the [CompositeKey]
    (header.proto:39-50) it may contain: threshold and, for each [EncryptedKeyParts], its
    [num_key_parts] and [key_data]. *)
Inductive kdata :=
| KNone                                              (* key_data: None *)
| KEnc (b : bytes)                                   (* encrypted_key_data *)
| KComp (threshold : N) (key_parts : list (N * kdata)). (* composite_key *)

(** header.proto:39-50 [CompositeKey]. *)
Definition ckey := (N * list (N * kdata))%type.

(** header.proto:7-22 [RyptFileHeader]; the crypto family is [Some aead_algorithm] (the i32 enum value
    as an unsigned 32-bit number). *)
Record header := mkHeader {
  hd_family : option N;
  hd_ephemeral_pk : bytes;
  hd_payload_key : option ckey;
  hd_protected : bytes
}.

(** header.proto:81-95 [ProtectedHeader]. *)
Record protected_header := mkProtected {
  ph_auth_type : N;
  ph_sender_pk : bytes;
  ph_chunk_size : N
}.

(** ** Encoding *)

(** prost [encode_varint]. The fuel 10 covers 64 bits. *)
Fixpoint varint_go (fuel : nat) (n : N) : bytes :=
  match fuel with
  | O => []
  | S fuel => if n <? 128 then [n2b n] else n2b (n mod 128 + 128) :: varint_go fuel (n / 128)
  end.
Definition varint (n : N) : bytes := varint_go 10 n.

(** prost [encode_key]: tag and wire type. *)
Definition enc_key (tag wire : N) : bytes := varint (tag * 8 + wire).

(** Length-delimited field. *)
Definition enc_len (tag : N) (body : bytes) : bytes := enc_key tag 2 ++ varint (lenN body) ++ body.

(** proto3 scalar fields are skipped when they have the default value. *)
Definition enc_uint64 (tag v : N) : bytes := if v =? 0 then [] else enc_key tag 0 ++ varint v.
Definition enc_bytes (tag : N) (b : bytes) : bytes := match b with [] => [] | _ => enc_len tag b end.
Definition enc_fixed64 (tag v : N) : bytes := if v =? 0 then [] else enc_key tag 1 ++ le_bytes 8 v.
(** An enum is an i32, sign-extended to 64 bits. *)
Definition sext32 (v : N) : N := if v <? 2147483648 then v else v + (two64 - two32).
Definition enc_enum (tag v : N) : bytes := if v =? 0 then [] else enc_key tag 0 ++ varint (sext32 v).

(** [CompositeKey] and [EncryptedKeyParts]. *)
Fixpoint enc_kdata (d : kdata) : bytes :=
  match d with
  | KNone => []
  | KEnc b => enc_len 2 b
  | KComp t parts =>
      enc_len 3 (enc_uint64 1 t ++
                 concat (map (fun '(n, d) => enc_len 2 (enc_uint64 1 n ++ enc_kdata d)) parts))
  end.
Definition enc_kparts (p : N * kdata) : bytes := enc_uint64 1 (fst p) ++ enc_kdata (snd p).
Definition enc_ckey (k : ckey) : bytes :=
  enc_uint64 1 (fst k) ++ concat (map (fun p => enc_len 2 (enc_kparts p)) (snd k)).

Definition encode_header (h : header) : bytes :=
  match hd_family h with None => [] | Some alg => enc_len 1 (enc_enum 1 alg) end ++
  enc_bytes 6 (hd_ephemeral_pk h) ++
  match hd_payload_key h with None => [] | Some k => enc_len 7 (enc_ckey k) end ++
  enc_bytes 8 (hd_protected h).

Definition encode_protected (p : protected_header) : bytes :=
  enc_enum 1 (ph_auth_type p) ++ enc_bytes 2 (ph_sender_pk p) ++ enc_fixed64 4 (ph_chunk_size p).

(** ** Decoding *)

(** prost [decode_varint]: at most 10 bytes, value modulo 2^64. *)
Fixpoint dec_varint_go (fuel : nat) (shift acc : N) (b : bytes) : option (N * bytes) :=
  match fuel, b with
  | S fuel, x :: b' =>
      let acc := acc + b2n x mod 128 * shift in
      if b2n x <? 128 then Some (wrap64 acc, b') else dec_varint_go fuel (shift * 128) acc b'
  | _, _ => None
  end.
Definition dec_varint (b : bytes) : option (N * bytes) := dec_varint_go 10 1 0 b.

(** First [n] bytes of a buffer, [None] if there are fewer. *)
Definition take (n : N) (b : bytes) : option (bytes * bytes) :=
  if lenN b <? n then None else Some (firstn (N.to_nat n) b, skipn (N.to_nat n) b).

Inductive wire :=
| WVarint (v : N)
| WFixed64 (b : bytes)
| WLen (b : bytes)
| WFixed32 (b : bytes).

(** One field: prost [decode_key] followed by reading the value according to the wire type. *)
Definition dec_field (b : bytes) : option (N * wire * bytes) :=
  match dec_varint b with
  | None => None
  | Some (key, b) =>
      if two32 <=? key then None
      else
        let tag := key / 8 in
        if tag <? 1 then None
        else
          match key mod 8 with
          | 0 => match dec_varint b with Some (v, b) => Some (tag, WVarint v, b) | None => None end
          | 1 => match take 8 b with Some (v, b) => Some (tag, WFixed64 v, b) | None => None end
          | 2 => match dec_varint b with
                 | Some (len, b) =>
                     match take len b with Some (v, b) => Some (tag, WLen v, b) | None => None end
                 | None => None
                 end
          | 5 => match take 4 b with Some (v, b) => Some (tag, WFixed32 v, b) | None => None end
          | _ => None
          end
  end.

(** [Message::merge]: the sequence of all fields of a buffer.  prost interprets each field right
    after reading it; as every failure gives the same error the order does not matter. *)
Fixpoint dec_fields_go (fuel : nat) (b : bytes) : option (list (N * wire)) :=
  match b with
  | [] => Some []
  | _ =>
      match fuel with
      | O => None
      | S fuel =>
          match dec_field b with
          | None => None
          | Some (tag, w, b) =>
              match dec_fields_go fuel b with None => None | Some l => Some ((tag, w) :: l) end
          end
      end
  end.
Definition dec_fields (b : bytes) : option (list (N * wire)) := dec_fields_go (length b) b.

(** Left fold with failure: fields are merged in order. *)
Fixpoint merge_fields {A} (f : A -> N * wire -> option A) (a : A) (l : list (N * wire)) : option A :=
  match l with
  | [] => Some a
  | x :: l => match f a x with None => None | Some a => merge_fields f a l end
  end.

Definition dec_message {A} (f : A -> N * wire -> option A) (a : A) (b : bytes) : option A :=
  match dec_fields b with None => None | Some l => merge_fields f a l end.

(** [EncryptedKeyParts]/[CompositeKey] field merging.  The fuel bounds the nesting depth; each nesting
    level takes at least two bytes, so the length of the buffer suffices.  (prost recurses on the
    machine stack without limit; stack exhaustion is not modelled.) *)
Fixpoint merge_ckey (fuel : nat) (k : ckey) (f : N * wire) : option ckey :=
  match fuel with
  | O => None
  | S fuel =>
      let '(threshold, parts) := k in
      match f with
      | (1, WVarint v) => Some (v, parts)
      | (1, _) => None
      | (2, WLen b) =>
          let merge_kparts (p : N * kdata) (f : N * wire) : option (N * kdata) :=
            match f with
            | (1, WVarint v) => Some (v, snd p)
            | (1, _) => None
            | (2, WLen b) => Some (fst p, KEnc b)
            | (2, _) => None
            | (3, WLen b) =>
                match dec_message (merge_ckey fuel) (0, []) b with
                | Some (t, l) => Some (fst p, KComp t l)
                | None => None
                end
            | (3, _) => None
            | _ => Some p
            end in
          match dec_message merge_kparts (0, KNone) b with
          | Some p => Some (threshold, parts ++ [p])
          | None => None
          end
      | (2, _) => None
      | _ => Some k
      end
  end.

(** [LibsodiumCryptoFamily]. *)
Definition merge_libsodium (a : N) (f : N * wire) : option N :=
  match f with
  | (1, WVarint v) => Some (wrap32 v)
  | (1, _) => None
  | _ => Some a
  end.

(** [RyptFileHeader]: oneof replaces, optional message merges into the previous value. *)
Definition merge_header (fuel : nat) (h : header) (f : N * wire) : option header :=
  match f with
  | (1, WLen b) =>
      match dec_message merge_libsodium 0 b with
      | Some a => Some (mkHeader (Some a) (hd_ephemeral_pk h) (hd_payload_key h) (hd_protected h))
      | None => None
      end
  | (1, _) => None
  | (6, WLen b) => Some (mkHeader (hd_family h) b (hd_payload_key h) (hd_protected h))
  | (6, _) => None
  | (7, WLen b) =>
      let k0 := match hd_payload_key h with Some k => k | None => (0, []) end in
      match dec_message (merge_ckey fuel) k0 b with
      | Some k => Some (mkHeader (hd_family h) (hd_ephemeral_pk h) (Some k) (hd_protected h))
      | None => None
      end
  | (7, _) => None
  | (8, WLen b) => Some (mkHeader (hd_family h) (hd_ephemeral_pk h) (hd_payload_key h) b)
  | (8, _) => None
  | _ => Some h
  end.

(** header_crypto.rs:437 [RyptFileHeader::decode]. *)
Definition decode_header (b : bytes) : option header :=
  dec_message (merge_header (S (length b))) (mkHeader None [] None []) b.

Definition merge_protected (p : protected_header) (f : N * wire) : option protected_header :=
  match f with
  | (1, WVarint v) => Some (mkProtected (wrap32 v) (ph_sender_pk p) (ph_chunk_size p))
  | (1, _) => None
  | (2, WLen b) => Some (mkProtected (ph_auth_type p) b (ph_chunk_size p))
  | (2, _) => None
  | (4, WFixed64 b) => Some (mkProtected (ph_auth_type p) (ph_sender_pk p) (le_value b))
  | (4, _) => None
  | _ => Some p
  end.

(** header_crypto.rs:471 [ProtectedHeader::decode]. *)
Definition decode_protected (b : bytes) : option protected_header :=
  dec_message merge_protected (mkProtected 0 [] 0) b.

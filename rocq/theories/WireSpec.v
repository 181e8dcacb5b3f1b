(** Specification of the published header format, independent of the codec in [Proto]: which byte strings
    are protobuf messages, and what a message with given fields means according to header.proto.
    From [Proto] only the data types ([wire], [kdata], [ckey], [header], [protected_header]) are used. *)
From Coq Require Import List NArith.
From Coq.Strings Require Import Byte.
From Verif Require Import Base Proto.
Import ListNotations.
Local Open Scope N_scope.

(** ** Byte strings that are messages *)

(** Base 128, least significant group first; all bytes but the last have the high bit set. *)
Inductive base128 : N -> bytes -> Prop :=
| b128_last b : b2n b < 128 -> base128 (b2n b) [b]
| b128_more b n bs : 128 <= b2n b -> base128 n bs -> base128 (b2n b - 128 + 128 * n) (b :: bs).

(** At most ten bytes, read modulo 2^64. *)
Definition is_varint (v : N) (bs : bytes) : Prop :=
  exists n, base128 n bs /\ (length bs <= 10)%nat /\ v = n mod 2 ^ 64.

(** A field: the number and wire type, then the value. *)
Inductive is_field : N * wire -> bytes -> Prop :=
| isf_varint tag v kb vb :
    1 <= tag < 2 ^ 29 -> is_varint (tag * 8 + 0) kb -> is_varint v vb -> is_field (tag, WVarint v) (kb ++ vb)
| isf_64 tag b kb :
    1 <= tag < 2 ^ 29 -> is_varint (tag * 8 + 1) kb -> length b = 8%nat -> is_field (tag, WFixed64 b) (kb ++ b)
| isf_len tag b kb lb :
    1 <= tag < 2 ^ 29 -> is_varint (tag * 8 + 2) kb -> is_varint (lenN b) lb ->
    is_field (tag, WLen b) (kb ++ lb ++ b)
| isf_32 tag b kb :
    1 <= tag < 2 ^ 29 -> is_varint (tag * 8 + 5) kb -> length b = 4%nat -> is_field (tag, WFixed32 b) (kb ++ b).

(** A message: a sequence of fields. *)
Inductive is_message : list (N * wire) -> bytes -> Prop :=
| ism_nil : is_message [] []
| ism_cons f fs b bs : is_field f b -> is_message fs bs -> is_message (f :: fs) (b ++ bs).

(** ** What fields mean *)

Definition a_varint (w : wire) : Prop := match w with WVarint _ => True | _ => False end.
Definition a_len (w : wire) : Prop := match w with WLen _ => True | _ => False end.
Definition a_fixed64 (w : wire) : Prop := match w with WFixed64 _ => True | _ => False end.

(** Every field number [tag] has this type. *)
Definition typed (tag : N) (ty : wire -> Prop) (fs : list (N * wire)) : Prop :=
  forall w, In (tag, w) fs -> ty w.

(** The values of the fields [tag], in order. *)
Definition ints (tag : N) (fs : list (N * wire)) : list N :=
  flat_map (fun f => match f with (t, WVarint v) => if t =? tag then [v] else [] | _ => [] end) fs.
Definition bodies (tag : N) (fs : list (N * wire)) : list bytes :=
  flat_map (fun f => match f with (t, WLen b) => if t =? tag then [b] else [] | _ => [] end) fs.
Definition fixed64s (tag : N) (fs : list (N * wire)) : list N :=
  flat_map (fun f => match f with (t, WFixed64 b) => if t =? tag then [le_value b] else [] | _ => [] end) fs.

(** header.proto:39-68, [CompositeKey] and [EncryptedKeyParts]: the last number counts, repeated messages
    are collected, and of the two kinds of key data the last one given counts. *)
Inductive ckey_means : list (N * wire) -> ckey -> Prop :=
| CM fs parts :
    typed 1 a_varint fs -> typed 2 a_len fs -> parts_mean (bodies 2 fs) parts ->
    ckey_means fs (last (ints 1 fs) 0, parts)
with parts_mean : list bytes -> list (N * kdata) -> Prop :=
| PM_nil : parts_mean [] []
| PM_cons b gs p bs ps :
    is_message gs b -> kparts_mean gs p -> parts_mean bs ps -> parts_mean (b :: bs) (p :: ps)
with kparts_mean : list (N * wire) -> N * kdata -> Prop :=
| KM fs d :
    typed 1 a_varint fs -> kdata_means fs KNone d -> kparts_mean fs (last (ints 1 fs) 0, d)
with kdata_means : list (N * wire) -> kdata -> kdata -> Prop :=
| KC_nil d : kdata_means [] d d
| KC_enc b fs d d' : kdata_means fs (KEnc b) d' -> kdata_means ((2, WLen b) :: fs) d d'
| KC_comp b gs t parts fs d d' :
    is_message gs b -> ckey_means gs (t, parts) -> kdata_means fs (KComp t parts) d' ->
    kdata_means ((3, WLen b) :: fs) d d'
| KC_other tag w fs d d' : tag <> 2 -> tag <> 3 -> kdata_means fs d d' -> kdata_means ((tag, w) :: fs) d d'.

(** header.proto:24-37, [LibsodiumCryptoFamily]. *)
Definition family_means (b : bytes) (alg : N) : Prop :=
  exists gs, is_message gs b /\ typed 1 a_varint gs /\ alg = last (ints 1 gs) 0 mod 2 ^ 32.

Definition last_of {A} (l : list A) : option A := last (map Some l) None.

(** header.proto:7-22, [RyptFileHeader]: crypto family 1, ephemeral key 6, payload key 7, protected header
    8.  Several payload keys are merged. *)
Definition header_means (fs : list (N * wire)) (h : header) : Prop :=
  typed 1 a_len fs /\ typed 6 a_len fs /\ typed 7 a_len fs /\ typed 8 a_len fs /\
  (exists algs, Forall2 family_means (bodies 1 fs) algs /\ hd_family h = last_of algs) /\
  hd_ephemeral_pk h = last (bodies 6 fs) [] /\
  (exists gss, Forall2 is_message gss (bodies 7 fs) /\
     match gss with
     | [] => hd_payload_key h = None
     | _ => exists k, ckey_means (concat gss) k /\ hd_payload_key h = Some k
     end) /\
  hd_protected h = last (bodies 8 fs) [].

(** header.proto:81-95, [ProtectedHeader]: authentication type 1, sender key 2, chunk size 4. *)
Definition protected_means (fs : list (N * wire)) (p : protected_header) : Prop :=
  typed 1 a_varint fs /\ typed 2 a_len fs /\ typed 4 a_fixed64 fs /\
  ph_auth_type p = last (ints 1 fs) 0 mod 2 ^ 32 /\
  ph_sender_pk p = last (bodies 2 fs) [] /\
  ph_chunk_size p = last (fixed64s 4 fs) 0.

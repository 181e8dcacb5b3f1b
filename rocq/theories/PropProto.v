(** C15, C63: header serialization.  [header_u64] (ProtoSpec) says that all numbers fit their Rust types;
    WireSpec specifies the published format independently of the codec. *)
From Coq Require Import List NArith Bool Lia.
From Coq.Strings Require Import Byte.
From Verif Require Import Base BaseFacts Proto ProtoSpec ProtoProofs WireSpec WireProofs.
Import ListNotations.
Local Open Scope N_scope.

Theorem C15_file_header_round_trips :
  forall h : header,
    header_u64 h -> lenN (encode_header h) < 2 ^ 64 -> decode_header (encode_header h) = Some h.
Proof. exact header_round_trip. Qed.
Print Assumptions C15_file_header_round_trips.

Theorem C15_protected_header_round_trips :
  forall p : protected_header,
    ph_auth_type p < 2 ^ 32 -> ph_chunk_size p < 2 ^ 64 -> lenN (ph_sender_pk p) < 2 ^ 64 ->
    decode_protected (encode_protected p) = Some p.
Proof. exact protected_round_trip. Qed.
Print Assumptions C15_protected_header_round_trips.

(** Hence two different headers never serialize to the same bytes. *)
Theorem C15_encodings_are_distinct :
  forall h1 h2 : header,
    header_u64 h1 -> header_u64 h2 -> lenN (encode_header h1) < 2 ^ 64 ->
    encode_header h1 = encode_header h2 -> h1 = h2.
Proof.
  intros h1 h2 H1 H2 HL HE.
  assert (H : Some h1 = Some h2).
  { rewrite <- (header_round_trip h1 H1 HL).
    rewrite <- (header_round_trip h2 H2) by (rewrite <- HE; exact HL).
    now rewrite HE. }
  now injection H.
Qed.
Print Assumptions C15_encodings_are_distinct.

(** A nested header with defaulted, large and empty fields. *)
Definition C15_header : header :=
  mkHeader (Some 2) (repeat x07 32)
    (Some (300, [(0, KEnc [x01; x02]); (2, KComp 0 [(18446744073709551615, KEnc []); (0, KNone)]); (5, KComp 0 [])]))
    [x09].
Example C15_case :
  header_u64 C15_header /\ lenN (encode_header C15_header) = 81 /\
  decode_header (encode_header C15_header) = Some C15_header.
Proof.
  split; [|split; reflexivity].
  cbv [header_u64 C15_header hd_family hd_payload_key kdata_u64].
  repeat (constructor; simpl); unfold two64, two32; lia.
Qed.
Example C15_case_protected :
  decode_protected (encode_protected (mkProtected 1 (repeat x07 32) 1048576))
  = Some (mkProtected 1 (repeat x07 32) 1048576) /\ decode_protected [x08] = None.
Proof. split; reflexivity. Qed.

(** ** C63 *)

(** The decoder accepts exactly the byte strings that are messages of the published format, and reads from
    them what header.proto says. *)
Theorem C63_file_headers_follow_the_schema :
  forall (b : bytes) (h : header),
    decode_header b = Some h <-> exists fs, is_message fs b /\ header_means fs h.
Proof. exact header_decodes. Qed.
Print Assumptions C63_file_headers_follow_the_schema.

Theorem C63_protected_headers_follow_the_schema :
  forall (b : bytes) (p : protected_header),
    decode_protected b = Some p <-> exists fs, is_message fs b /\ protected_means fs p.
Proof. exact protected_decodes. Qed.
Print Assumptions C63_protected_headers_follow_the_schema.

(** What is written is a message of the published format that means the header written. *)
Theorem C63_written_headers_follow_the_schema :
  forall (h : header) (p : protected_header),
    header_u64 h -> lenN (encode_header h) < 2 ^ 64 ->
    ph_auth_type p < 2 ^ 32 -> ph_chunk_size p < 2 ^ 64 -> lenN (ph_sender_pk p) < 2 ^ 64 ->
    (exists fs, is_message fs (encode_header h) /\ header_means fs h) /\
    (exists fs, is_message fs (encode_protected p) /\ protected_means fs p).
Proof.
  intros h p H1 H2 H3 H4 H5. split.
  - apply header_decodes. now apply header_round_trip.
  - apply protected_decodes. now apply protected_round_trip.
Qed.
Print Assumptions C63_written_headers_follow_the_schema.

(** Fields that this version does not know are skipped, wherever they are. *)
Theorem C63_unknown_fields_are_ignored :
  forall (a u b : bytes) (fs gs : list (N * wire)) (tag : N) (w : wire),
    is_message fs a -> is_field (tag, w) u -> is_message gs b ->
    ~ In tag [1; 6; 7; 8] ->
    decode_header (a ++ u ++ b) = decode_header (a ++ b).
Proof.
  intros a u b fs gs tag w Ha Hu Hb Ht.
  apply (header_skips_unknown a u b fs gs tag w Ha Hu Hb); intros ->; apply Ht; simpl; tauto.
Qed.
Print Assumptions C63_unknown_fields_are_ignored.

(** Field 1 with algorithm 2, an unknown field 9 (32 bits), a first payload key with threshold 300, the
    ephemeral key, a second payload key with one part: accepted, and the payload keys are merged. *)
Example C63_case :
  decode_header ([x0a; x02; x08; x02] ++ [x4d; x01; x02; x03; x04] ++ [x3a; x03; x08; xac; x02] ++
                 [x32; x01; x07] ++ [x3a; x05; x12; x03; x12; x01; x55]) =
  Some (mkHeader (Some 2) [x07] (Some (300, [(0, KEnc [x55])])) []).
Proof. reflexivity. Qed.
Example C63_case_field : is_field (9, WFixed32 [x01; x02; x03; x04]) [x4d; x01; x02; x03; x04].
Proof.
  apply (isf_32 9 [x01; x02; x03; x04] [x4d]); [change (2 ^ 29) with 536870912; lia| |reflexivity].
  exists 77. split; [|split; [simpl; lia|reflexivity]]. apply (b128_last x4d). reflexivity.
Qed.
(** Cut off, wrong wire type, number 0, an eleven-byte number: rejected. *)
Example C63_case_rejected :
  decode_header [x32; x02; x07] = None /\ decode_header [x30; x07] = None /\ decode_header [x02; x01; x07] = None /\
  decode_header ([x48] ++ repeat x80 10 ++ [x00]) = None /\
  decode_header ([x48] ++ repeat x80 9 ++ [x00]) = Some (mkHeader None [] None []).
Proof. repeat split; reflexivity. Qed.

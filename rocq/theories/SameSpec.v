(** Specification for C88: what may differ between two conversions of the same bytes. *)
From Coq.Strings Require Import Byte String.
From Coq Require Import List NArith ZArith Bool PeanoNat Lia.
From Verif Require Import Base Shamir Errors Io HeaderIo HeaderIoSpec Crypto Proto HeaderCrypto CredSpec FileSpec.
Import ListNotations.
Local Open Scope nat_scope.

(** Two sources with the same bytes and the same end; the pieces and the interruptions may differ. *)
Definition same_source (s s' : source) : Prop := flat s = flat s' /\ ends_in_error s = ends_in_error s'.

(** Results that are the same but for which of several errors is reported. *)
Definition same_result (r r' : outcome err unit) : Prop := (r = Ok tt <-> r' = Ok tt) /\ (r = Panic <-> r' = Panic).

(** A sink that takes everything. *)
Definition roomy (w : sink) : Prop := w_room w = None /\ w_flush_ok w = true.

(** The protected part of the header at the start of the file [b] opens under two keys. *)
Definition opens_under_two_keys (lib : crypto_lib) (b : bytes) : Prop :=
  exists ser frame rest h cs ct tag k k',
    b = frame ++ rest /\ is_frame ser frame /\ decode_header ser = Some h /\ lib (announced ser) = Some cs /\
    hd_protected h = ct ++ tag /\ length tag = 16 /\
    k <> k' /\ length k = 32 /\ length k' = 32 /\
    cs_aead_decrypt cs ct [] k nonce_of_header tag <> None /\ cs_aead_decrypt cs ct [] k' nonce_of_header tag <> None.

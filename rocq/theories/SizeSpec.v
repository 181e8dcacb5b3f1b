(** Specification of the size of encrypted files (C81), from the description of the format: a header is a list of fields,
    each with a tag, the size of its content in base 128 and its content. *)
From Coq Require Import List NArith Bool.
From Verif Require Import Base Crypto HeaderCrypto.
Import ListNotations.
Local Open Scope N_scope.

(** The number of digits in base 128, at least one. *)
Definition digits (n : N) : N := N.max 1 ((N.size n + 6) / 7).
Definition field (n : N) : N := 1 + digits n + n.
(** A count is only there if it is not 1. *)
Definition count (n : N) : N := if n <=? 1 then 0 else 1 + digits n.

(** A key of [len] bytes encrypted for [c]: 16 bytes more for a single recipient; for a group the threshold and, for
    every member, its number of shares and that many parts of the key. *)
Fixpoint key_size (c : cred) (len : N) {struct c} : N :=
  match c with
  | Complex members _ threshold =>
      field (count threshold + fold_right N.add 0 (map (fun m => let '(shares, c) := m in field (count shares + key_size c (shares * len))) members))
  | _ => field (len + 16)
  end.
(** The algorithm, the public key of the sender, the encrypted file key and the protected part. *)
Definition header_size (c : cred) : N := 4 + field 32 + key_size c 32 + field 61.

(** [n] rounded up to a multiple of 8. *)
Definition aligned (n : N) : N := (n + 7) / 8 * 8.

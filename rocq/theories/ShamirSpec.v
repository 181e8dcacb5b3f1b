(** Specification vocabulary for secret sharing: polynomials over the byte field. *)
From Coq Require Import List NArith.
From Coq.Strings Require Import Byte.
From Verif Require Import Base Gf256 GfSpec.
Import ListNotations.

(** Value at [x] of the polynomial with coefficients [p], constant term first; addition is xor and
    multiplication is the specification product [aes_mul]. *)
Fixpoint poly_eval (p : bytes) (x : byte) : byte :=
  match p with
  | [] => x00
  | c :: p' => bxor c (aes_mul x (poly_eval p' x))
  end.

(** The generator [r] delivers the bytes [l] first. *)
Definition rng_starts_with (l : bytes) (r : nat -> byte) : Prop :=
  forall i, i < length l -> r i = nth i l x00.

(** Independent specification of GF(2^8) with modulus x^8+x^4+x^3+x+1: polynomials over GF(2) are
    binary numbers, product is carry-less multiplication followed by long division. *)
From Coq Require Import NArith List.
From Coq.Strings Require Import Byte.
From Verif Require Import Base.
Local Open Scope N_scope.

(** Carry-less product: xor of [a * x^i] over the set bits [i] of [b]. *)
Definition clmul (a b : N) : N :=
  fold_right (fun i acc => N.lxor (if N.testbit b i then N.shiftl a i else 0) acc)
             0 (0 :: 1 :: 2 :: 3 :: 4 :: 5 :: 6 :: 7 :: nil).

(** One step of long division by 0x11B: cancel the bit of degree [i]. *)
Definition cancel (v i : N) : N :=
  if N.testbit v i then N.lxor v (N.shiftl 283 (i - 8)) else v.

(** Remainder of a polynomial of degree at most 14 modulo x^8+x^4+x^3+x+1. *)
Definition poly_mod (v : N) : N :=
  fold_left cancel (14 :: 13 :: 12 :: 11 :: 10 :: 9 :: 8 :: nil) v.

(** Multiplication of field elements represented as bytes. *)
Definition aes_mul (a b : byte) : byte := n2b (poly_mod (clmul (b2n a) (b2n b))).

(** Model of [src/crypto/rng.rs] with the part of the crate rand (0.7.2) that header_crypto.rs:239-242 uses.  rand is
    external: [Rng::gen_range] is modelled from its source (rand/src/distributions/uniform.rs, [sample_single]). *)
From Coq Require Import List NArith Bool.
From Coq.Strings Require Import Byte.
From Verif Require Import Base Shamir Crypto HeaderIo HeaderCrypto.
Import ListNotations.
Local Open Scope N_scope.

(** rng.rs:23-27 *)
Definition next_u64 (r : rng) : N * rng := let '(b, r) := rng_fill 8 r in (le_value b, r).

(** [u64::leading_zeros] *)
Definition leading_zeros (n : N) : N := 64 - N.size n.
(** [sample_single] for usize: [v] is accepted if the lower half of the product is in the zone; the value is the upper half. *)
Definition zone (range : N) : N := wrap64 (range * 2 ^ leading_zeros range) - 1.
Definition accept (range v : N) : option N :=
  let product := v * range in
  if product mod 2 ^ 64 <=? zone range then Some (product / 2 ^ 64) else None.
(** The loop of [sample_single] from 0 to [range]: draws until one is accepted (it need not end). *)
Inductive gen_range (range : N) : rng -> N -> rng -> Prop :=
| gr_done r v r' k : next_u64 r = (v, r') -> accept range v = Some k -> gen_range range r k r'
| gr_again r v r1 k r' : next_u64 r = (v, r1) -> accept range v = None -> gen_range range r1 k r' -> gen_range range r k r'.
(** header_crypto.rs:239-242, where the result is [er_chunk]. *)
Definition draw_chunk (r : rng) (k : N) (r' : rng) : Prop := gen_range (2 * DEFAULT_CHUNK_SIZE_UNCERTAINTY / FILE_ALIGNMENT) r k r'.

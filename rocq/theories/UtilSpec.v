(** What hexadecimal keys and human readable numbers should look like, independently of util.rs. *)
From Coq.Strings Require Import Byte String.
From Coq Require Import List NArith Bool.
From Verif Require Import Base Text.
Import ListNotations.
Local Open Scope N_scope.

(** ** Hexadecimal keys *)

(** The [i]-th half byte of [b], high half first. *)
Definition nibble (b : bytes) (i : nat) : N :=
  let x := b2n (nth (Nat.div2 i) b x00) in
  if Nat.even i then x / 16 else x mod 16.

(** Sixteen digits in both cases. *)
Definition digit (upper : bool) (v : N) : char :=
  b2n (nth (N.to_nat v) (list_byte_of_string (if upper then "0123456789ABCDEF" else "0123456789abcdef")) x00).

(** The checksummed text of [b]: its [i]-th digit is written in upper case when the [i]-th half byte of
    the hash (repeated as often as needed) has its top bit set. *)
Definition checksummed_text (hash b : bytes) : text :=
  map (fun i => digit (8 <=? nibble hash (Nat.modulo i (2 * length hash))) (nibble b i)) (seq 0 (2 * length b)).

(** [spaced a t]: [t] is [a] with white space put before, between or after pairs of characters. *)
Inductive spaced : text -> text -> Prop :=
| spaced_nil : spaced [] []
| spaced_ws c a t : is_whitespace c = true -> spaced a t -> spaced a (c :: t)
| spaced_pair x y a t : spaced a t -> spaced (x :: y :: a) (x :: y :: t).

(** [hex_of t b]: [t] spells the bytes [b], two hexadecimal digits in either case for each. *)
Inductive hex_of : text -> bytes -> Prop :=
| hex_nil : hex_of [] []
| hex_pair u v t x b : hex_of t b -> hex_of (digit u (b2n x / 16) :: digit v (b2n x mod 16) :: t) (x :: b).

(** ** Numbers *)

(** The number a text of decimal digits denotes. *)
Fixpoint decimal_from (acc : N) (t : text) : option N :=
  match t with
  | [] => Some acc
  | c :: t' => if (48 <=? c) && (c <=? 57) then decimal_from (10 * acc + (c - 48)) t' else None
  end.
(** [denotes t n]: [t] is a decimal numeral for [n] without superfluous zeroes. *)
Definition denotes (t : text) (n : N) : Prop :=
  t <> [] /\ decimal_from 0 t = Some n /\ (hd 0 t = 48 -> t = [48]).
(** A two digit field. *)
Definition two_digits (t : text) (n : N) : Prop :=
  length t = 2%nat /\ decimal_from 0 t = Some n.

Definition units : list string := ["B"; "KiB"; "MiB"; "GiB"; "TiB"; "PiB"; "EiB"]%string.
Definition unit_text (i : nat) : text := map b2n (list_byte_of_string (nth i units EmptyString)).

Definition distance (a b : N) : N := (a - b) + (b - a).

(** Basic vocabulary shared by every model file: bytes, machine words, outcomes.
    Nothing here models a rypt function; it models Rust built-in types. *)
From Coq Require Import List NArith Bool Lia.
From Coq.Strings Require Import Byte.
Import ListNotations.

(** ** Bytes (Rust [u8]) *)

Notation bytes := (list byte).

(** [u8 as usize]. *)
Definition b2n (b : byte) : N := Byte.to_N b.

(** [usize as u8]: truncation modulo 256. *)
Definition n2b (n : N) : byte :=
  match Byte.of_N (n mod 256) with Some b => b | None => x00 end.

(** [u8 ^ u8]. *)
Definition bxor (a b : byte) : byte := n2b (N.lxor (b2n a) (b2n b)).

Definition beqb (a b : byte) : bool := Byte.eqb a b.

(** Slice equality [a == b]. *)
Fixpoint bytes_eqb (a b : bytes) : bool :=
  match a, b with
  | [], [] => true
  | x :: a', y :: b' => beqb x y && bytes_eqb a' b'
  | _, _ => false
  end.

(** Element-wise combination of two slices, [a.iter().zip(b)]; stops at the shorter one. *)
Fixpoint map2 {A B C} (f : A -> B -> C) (l : list A) (k : list B) : list C :=
  match l, k with
  | a :: l', b :: k' => f a b :: map2 f l' k'
  | _, _ => []
  end.

(** ** Machine words *)

Definition two32 : N := 4294967296%N.
Definition two64 : N := 18446744073709551616%N.

(** [usize]/[u64] arithmetic of a release build wraps around. *)
Definition wrap64 (n : N) : N := (n mod two64)%N.
Definition wrap32 (n : N) : N := (n mod two32)%N.

(** Little-endian encoding of the low [k] bytes of [n] ([u32::to_le_bytes], [u64::to_le_bytes]). *)
Fixpoint le_bytes (k : nat) (n : N) : bytes :=
  match k with
  | O => []
  | S k' => n2b (n mod 256) :: le_bytes k' (n / 256)
  end.

(** [u32::from_le_bytes] and friends. *)
Fixpoint le_value (bs : bytes) : N :=
  match bs with
  | [] => 0
  | b :: bs' => b2n b + 256 * le_value bs'
  end%N.

Definition lenN {A} (l : list A) : N := N.of_nat (length l).

(** ** Outcomes: normal return, error return ([Result::Err]/[Fallible]), Rust panic. *)

Inductive outcome (E A : Type) : Type :=
| Ok (a : A)
| Err (e : E)
| Panic.
Arguments Ok {E A} a.
Arguments Err {E A} e.
Arguments Panic {E A}.

Definition bind {E A B} (x : outcome E A) (f : A -> outcome E B) : outcome E B :=
  match x with
  | Ok a => f a
  | Err e => Err e
  | Panic => Panic
  end.

(** The [?] operator with an error conversion ([From]/[map_err]). *)
Definition map_err {E F A} (g : E -> F) (x : outcome E A) : outcome F A :=
  match x with
  | Ok a => Ok a
  | Err e => Err (g e)
  | Panic => Panic
  end.

Declare Scope out_scope.
Delimit Scope out_scope with out.
Notation "'let*' p ':=' x 'in' k" := (bind x (fun p => k))
  (at level 200, p pattern, x at level 100, k at level 200, right associativity) : out_scope.
Open Scope out_scope.

(** [ensure!(cond, err)]. *)
Definition ensure {E} (c : bool) (e : E) : outcome E unit := if c then Ok tt else Err e.

(** [assert!(cond)]. *)
Definition assert {E} (c : bool) : outcome E unit := if c then Ok tt else Panic.

(** Iterator adaptor [map(..).collect::<Result<Vec<_>,_>>()]. *)
Fixpoint map_out {E A B} (f : A -> outcome E B) (l : list A) : outcome E (list B) :=
  match l with
  | [] => Ok []
  | a :: l' => let* b := f a in let* bs := map_out f l' in Ok (b :: bs)
  end.

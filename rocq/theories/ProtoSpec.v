(** Specification vocabulary for header messages: which messages are representable in Rust. *)
From Coq Require Import List NArith.
From Coq.Strings Require Import Byte.
From Verif Require Import Base Proto.
Import ListNotations.
Local Open Scope N_scope.

(** All numbers in a key tree are 64-bit. *)
Fixpoint kdata_u64 (d : kdata) : Prop :=
  match d with
  | KNone | KEnc _ => True
  | KComp t l => t < two64 /\ (fix go l := match l with
                               | [] => True
                               | (n, d) :: l => n < two64 /\ kdata_u64 d /\ go l
                               end) l
  end.

(** Enum values are 32-bit, the other numbers 64-bit. *)
Definition header_u64 (h : header) : Prop :=
  match hd_family h with None => True | Some a => a < two32 end /\
  match hd_payload_key h with
  | None => True
  | Some (t, l) => t < two64 /\ Forall (fun p => fst p < two64 /\ kdata_u64 (snd p)) l
  end.


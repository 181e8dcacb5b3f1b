(** Specification vocabulary for byte sources and the file framing; independent of the model functions. *)
From Coq Require Import List NArith Bool.
From Coq.Strings Require Import Byte.
From Verif Require Import Base Shamir Errors Io.
Import ListNotations.

(** The bytes a source gives to a patient reader before end of file or a hard error. *)
Fixpoint flat (s : source) : bytes :=
  match s with
  | [] => []
  | RInterrupted :: s' => flat s'
  | RError :: _ => []
  | RData [] :: _ => []
  | RData d :: s' => d ++ flat s'
  end.

(** How the source ends: a hard error or end of file. *)
Fixpoint ends_in_error (s : source) : bool :=
  match s with
  | [] => false
  | RInterrupted :: s' => ends_in_error s'
  | RError :: _ => true
  | RData [] :: _ => false
  | RData _ :: s' => ends_in_error s'
  end.

(** The documented layout (table in header_io.rs:22-33): signature, little-endian u32 length, header,
    the least number of zero bytes that makes the total a multiple of eight. *)
Definition is_frame (h f : bytes) : Prop :=
  exists b0 b1 b2 b3 zeros,
    f = [x72; x79; x70; x74] ++ [b0; b1; b2; b3] ++ h ++ zeros /\
    (N.of_nat (length h) = b2n b0 + 256 * b2n b1 + 65536 * b2n b2 + 16777216 * b2n b3)%N /\
    Forall (eq x00) zeros /\ length zeros < 8 /\ exists k, length f = 8 * k.

(** The file begins with the header [h].  Two headers a file begins with are the same: C14_frames_are_unambiguous. *)
Definition begins_with_header (h file : bytes) : Prop := exists f rest, is_frame h f /\ file = f ++ rest.

(** The sink accepts [n] more bytes. *)
Definition room_for (w : sink) (n : nat) : Prop :=
  match w_room w with None => True | Some r => n <= r end.

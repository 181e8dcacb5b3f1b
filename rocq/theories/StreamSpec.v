(** Specification of stream conversion: how a byte string is cut into chunks and what a plain
    sequential read-convert-write loop produces.  Independent of the threads, channels and buffers
    of the model. *)
From Coq Require Import List NArith Bool.
From Coq.Strings Require Import Byte.
From Verif Require Import Base Shamir Errors Io HeaderIoSpec.
Import ListNotations.

(** Cut [data] into pieces of [n] bytes; the last piece holds the 1 to [n] remaining bytes (none if
    there is no data at all). *)
Fixpoint chunks_fuel (fuel n : nat) (data : bytes) : list bytes :=
  match fuel with
  | O => [data]
  | S fuel =>
      if Nat.leb (length data) n then [data]
      else firstn n data :: chunks_fuel fuel n (skipn n data)
  end.
Definition chunks (n : nat) (data : bytes) : list bytes := chunks_fuel (length data) n data.

(** What "the fixed-size split of [data]" means, in words of lists only. *)
Definition is_split (n : nat) (data : bytes) (cs : list bytes) : Prop :=
  exists init last,
    cs = init ++ [last] /\ data = concat init ++ last /\
    Forall (fun c => length c = n) init /\ length last <= n /\ (init <> [] -> last <> []).

(** The same with the flag that marks the last chunk. *)
Fixpoint flag_last (cs : list bytes) : list (bytes * bool) :=
  match cs with
  | [] => []
  | [c] => [(c, true)]
  | c :: cs' => (c, false) :: flag_last cs'
  end.

(** The chunks a source yields: all of them, or if the source breaks, those known to be followed by
    more data. *)
Definition input_chunks (n : nat) (s : source) : list (bytes * bool) :=
  let cs := chunks n (flat s) in
  if ends_in_error s then map (fun c => (c, false)) (removelast cs) else flag_last cs.

(** Convert the chunks in order, from index [i] on, up to the first failure. *)
Fixpoint convert_seq (conv : bytes -> bool -> N -> outcome err bytes) (i : nat) (cs : list (bytes * bool))
  : list bytes * bool :=
  match cs with
  | [] => ([], true)
  | (c, l) :: cs' =>
      match conv c l (wrap64 (N.of_nat i)) with
      | Ok b => let '(bs, ok) := convert_seq conv (S i) cs' in (b :: bs, ok)
      | _ => ([], false)
      end
  end.

(** What the sequential loop converts, and whether it reaches the end of the input without an error. *)
Definition seq_converted (conv : bytes -> bool -> N -> outcome err bytes) (n : nat) (s : source) : list bytes :=
  fst (convert_seq conv 0 (input_chunks n s)).
Definition seq_input_ok (conv : bytes -> bool -> N -> outcome err bytes) (n : nat) (s : source) : bool :=
  negb (ends_in_error s) && snd (convert_seq conv 0 (input_chunks n s)).

(** As much of [d] as the sink takes. *)
Definition taken (w : sink) (d : bytes) : bytes :=
  match w_room w with None => d | Some r => firstn r d end.

(** What the sequential loop leaves in the sink. *)
Definition seq_out (conv : bytes -> bool -> N -> outcome err bytes) (n : nat) (s : source) (w : sink) : bytes :=
  w_out w ++ taken w (concat (seq_converted conv n s)).

(** The sequential loop succeeds: input read to the end, every chunk converted, everything written and
    flushed. *)
Definition seq_success (conv : bytes -> bool -> N -> outcome err bytes) (n : nat) (s : source) (w : sink) : Prop :=
  seq_input_ok conv n s = true /\
  room_for w (length (concat (seq_converted conv n s))) /\ w_flush_ok w = true.

Definition prefix_of {A} (a b : list A) : Prop := exists c, b = a ++ c.

Definition sumN (l : list N) : N := fold_right N.add 0%N l.

(** A converter whose output differs in length from its input by the announced amounts. *)
Definition sized (conv : bytes -> bool -> N -> outcome err bytes) (max in_asize out_asize : nat) : Prop :=
  forall b l i b', length b <= max -> conv b l i = Ok b' -> length b' + in_asize = length b + out_asize.

(** What the converter answers to the first chunk it does not convert. *)
Fixpoint first_failure (conv : bytes -> bool -> N -> outcome err bytes) (i : nat) (cs : list (bytes * bool))
  : option (outcome err bytes) :=
  match cs with
  | [] => None
  | (c, l) :: cs' =>
      match conv c l (wrap64 (N.of_nat i)) with
      | Ok _ => first_failure conv (S i) cs'
      | f => Some f
      end
  end.

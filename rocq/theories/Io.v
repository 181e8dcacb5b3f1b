(** Model of [std::io::Read] sources and [std::io::Write] sinks used by rypt. *)
From Coq Require Import List NArith Bool.
From Coq.Strings Require Import Byte.
From Verif Require Import Base Shamir Errors.
Import ListNotations.

(** ** Sources

    A source is the list of results it will give to successive system calls: some bytes, an
    [ErrorKind::Interrupted] error or another error.  After the end of the list every read returns
    0 bytes (end of file).  A data event bigger than the buffer is delivered piecewise.  [RData []]
    is a read call returning [Ok(0)] although more data may follow (e.g. Ctrl-D on a terminal). *)
Inductive revent :=
| RData (d : bytes)
| RInterrupted
| RError.

Definition source := list revent.

(** Put back the undelivered part of a data event. *)
Definition push_back (d : bytes) (s : source) : source :=
  match d with [] => s | _ => RData d :: s end.

(** [Read::read_exact] (std default implementation; called at header_io.rs:38 and 56): keeps
    reading until [n] bytes arrived, retries interrupted calls, fails on end of file. *)
Fixpoint read_exact (n : nat) (s : source) : outcome err (bytes * source) :=
  match n with
  | O => Ok ([], s)
  | S _ =>
      match s with
      | [] => Err EUnexpectedEof
      | RInterrupted :: s' => read_exact n s'
      | RError :: _ => Err EIo
      | RData [] :: _ => Err EUnexpectedEof
      | RData d :: s' =>
          if Nat.ltb (length d) n then
            let* (rest, s'') := read_exact (n - length d) s' in
            Ok (d ++ rest, s'')
          else Ok (firstn n d, push_back (skipn n d) s')
      end
  end.

(** ** Sinks

    A sink remembers what was written; [w_room] is the number of bytes it still accepts before every
    write fails ([None]: never fails), [w_flush_ok] tells whether [flush] succeeds. *)
Record sink := mkSink {
  w_out : bytes;
  w_room : option nat;
  w_flush_ok : bool;
  w_flushed : bool  (* flush was called and succeeded after the last write *)
}.

(** [Write::write_all]: either everything is written, or some prefix and then an error. *)
Definition write_all (w : sink) (d : bytes) : outcome err unit * sink :=
  match w_room w with
  | None => (Ok tt, mkSink (w_out w ++ d) None (w_flush_ok w) false)
  | Some room =>
      if Nat.leb (length d) room
      then (Ok tt, mkSink (w_out w ++ d) (Some (room - length d)) (w_flush_ok w) false)
      else (Err EIo, mkSink (w_out w ++ firstn room d) (Some 0) (w_flush_ok w) false)
  end.

(** [Write::flush]. *)
Definition flush (w : sink) : outcome err unit * sink :=
  if w_flush_ok w then (Ok tt, mkSink (w_out w) (w_room w) true true)
  else (Err EIo, w).

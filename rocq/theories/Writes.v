(** Model of [std::io::Write::write_all] on top of [write], for which Io has an abstraction (called at header_io.rs:80-89,
    stream_pipeline.rs:224 and gen_keys.rs:58, 66). *)
From Coq Require Import List Arith Bool.
From Coq.Strings Require Import Byte.
From Verif Require Import Base Shamir Errors Io.
Import ListNotations.

(** The answers of the operating system to successive [write] calls: at most this many bytes were written, the call was interrupted, or failed.
    After the end of the list everything is written. *)
Inductive wevent := WAccept (n : nat) | WInterrupted | WError.

(** The loop of the standard library: goes on with the rest after a part was written, and after interruptions; writing
    nothing at all is the error [WriteZero].  Gives the result, what has been written, and the answers that are left. *)
Fixpoint write_loop (evs : list wevent) (buf out : bytes) : outcome err unit * bytes * list wevent :=
  match buf with
  | [] => (Ok tt, out, evs)
  | _ =>
      match evs with
      | [] => (Ok tt, out ++ buf, [])
      | WInterrupted :: evs => write_loop evs buf out
      | WError :: evs => (Err EIo, out, evs)
      | WAccept n :: evs =>
          let n := Nat.min n (length buf) in
          if n =? 0 then (Err EIo, out, evs) else write_loop evs (skipn n buf) (out ++ firstn n buf)
      end
  end.

(** Writing one buffer after the other until there is an error, as stream_pipeline.rs:222-229 does: with this loop, and
    with [write_all] of Io. *)
Fixpoint write_loops (evs : list wevent) (bufs : list bytes) (out : bytes) : outcome err unit * bytes :=
  match bufs with
  | [] => (Ok tt, out)
  | b :: bufs =>
      match write_loop evs b out with
      | (Ok _, out, evs) => write_loops evs bufs out
      | (r, out, _) => (r, out)
      end
  end.
Fixpoint write_alls (w : sink) (bufs : list bytes) : outcome err unit * sink :=
  match bufs with
  | [] => (Ok tt, w)
  | b :: bufs =>
      match write_all w b with
      | (Ok _, w) => write_alls w bufs
      | (r, w) => (r, w)
      end
  end.

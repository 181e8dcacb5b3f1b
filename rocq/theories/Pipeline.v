(** Model of [src/stream_pipeline.rs]: four threads connected by channels.

    The state of the whole pipeline is one record; every thread has a step function that performs its
    next atomic action if it is enabled ([None]: blocked or finished).  An execution picks any thread
    at every point.  Atomic actions are: one channel operation, one [read] call, one [write] call
    (of any admissible size), one [flush] call, one chunk conversion, one progress callback, and for
    a thread that ends the separate drops of its receiver and of its sender.

    Not modelled: failure to spawn a thread (lines 71-79), interrupted [write] calls (retried by
    [write_all]), a panicking progress callback, the text of error contexts. *)
From Coq Require Import List NArith Bool.
From Coq.Strings Require Import Byte.
From Verif Require Import Base Shamir Errors Io.
Import ListNotations.

(** stream_pipeline.rs:9 *)
Definition NUM_CHUNKS_IN_PIPELINE : nat := 6.

(** stream_pipeline.rs:12-16 [Chunk]; [ck_cap] is the capacity of the buffer's allocation. *)
Record chunk := mkChunk {
  ck_buf : bytes;
  ck_cap : nat;
  ck_last : bool;
  ck_idx : N
}.

(** [Vec]'s capacity once it has to hold [len] bytes (std: at least doubles when it must grow). *)
Definition grow (cap len : nat) : nat := if Nat.leb len cap then cap else Nat.max (2 * cap) len.

(** [Vec::push], [Vec::truncate] and [Vec::resize] on a chunk's buffer. *)
Definition buf_push (c : chunk) (b : byte) : chunk :=
  mkChunk (ck_buf c ++ [b]) (grow (ck_cap c) (S (length (ck_buf c)))) (ck_last c) (ck_idx c).
Definition buf_truncate (c : chunk) (len : nat) : chunk :=
  mkChunk (firstn len (ck_buf c)) (ck_cap c) (ck_last c) (ck_idx c).
Definition buf_resize (c : chunk) (len : nat) : chunk :=
  mkChunk (firstn len (ck_buf c) ++ repeat x00 (len - length (ck_buf c)))
    (grow (ck_cap c) len) (ck_last c) (ck_idx c).

(** Store [d] into a buffer at [ptr], what [read(&mut buffer[ptr..])] does. *)
Definition overwrite (buf : bytes) (ptr : nat) (d : bytes) : bytes :=
  firstn ptr buf ++ d ++ skipn (ptr + length d) buf.

(** [chunk.is_last_chunk = l] *)
Definition set_last (c : chunk) (l : bool) : chunk := mkChunk (ck_buf c) (ck_cap c) l (ck_idx c).

(** How a worker thread ended: [Ok], an error, a [SendError] (early termination, line 135), a panic. *)
Inductive tres := TOk | TErr (e : err) | TSend | TPanic.

(** ** Parameters of one call: [StreamConverter] (lines 24-27) and [chunk_size] *)
Record pipe := mkPipe {
  p_conv : bytes -> bool -> N -> outcome err bytes;  (* convert_chunk: buffer, last flag, index *)
  p_in_asize : nat;
  p_out_asize : nat;
  p_chunk_size : nat
}.

(** stream_pipeline.rs:82-83 *)
Definition input_buffer_size (p : pipe) : nat := p_chunk_size p + p_in_asize p.
Definition buffer_capacity (p : pipe) : nat := p_chunk_size p + Nat.max (p_in_asize p) (p_out_asize p) + 1.

(** ** [read_stream] (156-205) as a sequential function: the chunks it sends and how it ends, given the
    chunks it receives *)

(** stream_pipeline.rs:163-170: make room for one more byte and store the byte read ahead. *)
Definition start_chunk (last_byte : option byte) (c : chunk) : chunk * nat :=
  let c := buf_push c x00 in
  match last_byte with
  | Some b => (mkChunk (overwrite (ck_buf c) 0 [b]) (ck_cap c) (ck_last c) (ck_idx c), 1)
  | None => (c, 0)
  end.

(** stream_pipeline.rs:180-182: end of stream. *)
Definition finish_chunk (c : chunk) (read_ptr : nat) : chunk := set_last (buf_truncate c read_ptr) true.

(** stream_pipeline.rs:196-198: a full buffer; the byte read ahead is taken off. *)
Definition full_chunk (c : chunk) : chunk * option byte :=
  (set_last (buf_truncate c (length (ck_buf c) - 1)) false, List.nth_error (ck_buf c) (length (ck_buf c) - 1)).

Inductive fill_res :=
| FFull (c : chunk) (s : source)
| FEof (c : chunk)
| FError.

(** stream_pipeline.rs:172-194, the [while] loop. *)
Fixpoint fill (s : source) (c : chunk) (read_ptr : nat) : fill_res :=
  if Nat.leb (length (ck_buf c)) read_ptr then FFull c s
  else
    match s with
    | [] => FEof (finish_chunk c read_ptr)
    | RData [] :: _ => FEof (finish_chunk c read_ptr)
    | RInterrupted :: s' => fill s' c read_ptr
    | RError :: _ => FError
    | RData d :: s' =>
        let room := length (ck_buf c) - read_ptr in
        let c' d := mkChunk (overwrite (ck_buf c) read_ptr d) (ck_cap c) (ck_last c) (ck_idx c) in
        if Nat.leb (length d) room then fill s' (c' d) (read_ptr + length d)
        else FFull (c' (firstn room d)) (RData (skipn room d) :: s')
    end.

Fixpoint read_stream (s : source) (last_byte : option byte) (input : list chunk) : list chunk * tres :=
  match input with
  | [] => ([], TOk)
  | c :: input' =>
      let '(c, read_ptr) := start_chunk last_byte c in
      match fill s c read_ptr with
      | FEof c => ([c], TOk)
      | FError => ([], TErr EIo)
      | FFull c s' =>
          let '(c, last_byte) := full_chunk c in
          let '(sent, res) := read_stream s' last_byte input' in
          (c :: sent, res)
      end
  end.

(** ** The concurrent pipeline *)

(** [read_stream] (156-205): waiting for a chunk; in the read loop at [read_ptr]; about to send, and
    then either continue with the byte read ahead or return; dropped its receiver; finished. *)
Inductive rd_state :=
| RWait (last_byte : option byte)
| RFill (c : chunk) (read_ptr : nat)
| RSend (c : chunk) (next : option (option byte))
| RClose (r : tres)
| RDone (r : tres).

(** [convert_chunks] (207-216). *)
Inductive cd_state :=
| CWait
| CConv (c : chunk)
| CSend (c : chunk)
| CClose (r : tres)
| CDone (r : tres).

(** [write_stream] (218-231): [WWrite c rest] is inside [write_all] with [rest] still to write. *)
Inductive wr_state :=
| WWait
| WWrite (c : chunk) (rest : bytes)
| WFlush (c : chunk)
| WSend (c : chunk)
| WClose (r : tres)
| WDone (r : tres).

(** [convert_stream] after the spawns (81-153): [MInit k]: [k] initial chunks left to send. *)
Inductive mn_state :=
| MInit (k : nat)
| MWait
| MSend (c : chunk) (written_bytes : N)
| MProgress (written_bytes : N)
| MJoin
| MRet (r : outcome err unit).

Record pstate := mkPstate {
  s_src : source;          (* input_stream *)
  s_rd : rd_state;
  s_ch0 : list chunk;      (* initial_sender -> read_receiver, unbounded *)
  s_ch1 : list chunk;      (* read_sender -> codec_receiver, bounded(1) *)
  s_cd : cd_state;
  s_ch2 : list chunk;      (* codec_sender -> write_receiver, bounded(1) *)
  s_wr : wr_state;
  s_sink : sink;           (* output_stream *)
  s_ch3 : list chunk;      (* write_sender -> final_receiver, unbounded *)
  s_mn : mn_state;
  s_idx : N;               (* chunk_idx of the main thread *)
  s_progress : list N      (* arguments given to progress_cb so far *)
}.

(** Which channel ends still exist. *)
Definition read_receiver_alive (s : pstate) : bool :=
  match s_rd s with RClose _ | RDone _ => false | _ => true end.
Definition read_sender_alive (s : pstate) : bool :=
  match s_rd s with RDone _ => false | _ => true end.
Definition codec_receiver_alive (s : pstate) : bool :=
  match s_cd s with CClose _ | CDone _ => false | _ => true end.
Definition codec_sender_alive (s : pstate) : bool :=
  match s_cd s with CDone _ => false | _ => true end.
Definition write_receiver_alive (s : pstate) : bool :=
  match s_wr s with WClose _ | WDone _ => false | _ => true end.
Definition write_sender_alive (s : pstate) : bool :=
  match s_wr s with WDone _ => false | _ => true end.
Definition initial_sender_alive (s : pstate) : bool :=
  match s_mn s with MJoin | MRet _ => false | _ => true end.
Definition final_receiver_alive (s : pstate) : bool :=
  match s_mn s with MJoin | MRet _ => false | _ => true end.

(** State updates, one per thread (each thread touches its own state, its input queue, its output
    queue and its resource). *)
Definition set_reader (s : pstate) src rd ch0 ch1 : pstate :=
  mkPstate src rd ch0 ch1 (s_cd s) (s_ch2 s) (s_wr s) (s_sink s) (s_ch3 s) (s_mn s) (s_idx s) (s_progress s).
Definition set_codec (s : pstate) cd ch1 ch2 : pstate :=
  mkPstate (s_src s) (s_rd s) (s_ch0 s) ch1 cd ch2 (s_wr s) (s_sink s) (s_ch3 s) (s_mn s) (s_idx s) (s_progress s).
Definition set_writer (s : pstate) wr sk ch2 ch3 : pstate :=
  mkPstate (s_src s) (s_rd s) (s_ch0 s) (s_ch1 s) (s_cd s) ch2 wr sk ch3 (s_mn s) (s_idx s) (s_progress s).
Definition set_main (s : pstate) mn ch0 ch3 idx progress : pstate :=
  mkPstate (s_src s) (s_rd s) ch0 (s_ch1 s) (s_cd s) (s_ch2 s) (s_wr s) (s_sink s) ch3 mn idx progress.

(** One action of the reader thread, stream_pipeline.rs:156-205. *)
Definition step_reader (s : pstate) : option pstate :=
  match s_rd s with
  | RWait last_byte =>
      match s_ch0 s with
      | c :: ch0 =>                                             (* 162-170 *)
          let '(c, read_ptr) := start_chunk last_byte c in
          Some (set_reader s (s_src s) (RFill c read_ptr) ch0 (s_ch1 s))
      | [] =>
          if initial_sender_alive s then None
          else Some (set_reader s (s_src s) (RClose TOk) [] (s_ch1 s))   (* 204 *)
      end
  | RFill c read_ptr =>
      if Nat.leb (length (ck_buf c)) read_ptr then              (* 172, 196-198 *)
        let '(c, last_byte) := full_chunk c in
        Some (set_reader s (s_src s) (RSend c (Some last_byte)) (s_ch0 s) (s_ch1 s))
      else
        match s_src s with                                      (* 173 *)
        | [] => Some (set_reader s [] (RSend (finish_chunk c read_ptr) None) (s_ch0 s) (s_ch1 s))
        | RData [] :: src => Some (set_reader s src (RSend (finish_chunk c read_ptr) None) (s_ch0 s) (s_ch1 s))
        | RInterrupted :: src => Some (set_reader s src (RFill c read_ptr) (s_ch0 s) (s_ch1 s))
        | RError :: src => Some (set_reader s src (RClose (TErr EIo)) (s_ch0 s) (s_ch1 s))
        | RData d :: src =>
            let k := Nat.min (length d) (length (ck_buf c) - read_ptr) in
            let c' := mkChunk (overwrite (ck_buf c) read_ptr (firstn k d)) (ck_cap c) (ck_last c) (ck_idx c) in
            Some (set_reader s (push_back (skipn k d) src) (RFill c' (read_ptr + k)) (s_ch0 s) (s_ch1 s))
        end
  | RSend c next =>                                             (* 183-184, 199 *)
      if codec_receiver_alive s then
        match s_ch1 s with
        | [] =>
            Some (set_reader s (s_src s)
                    (match next with Some last_byte => RWait last_byte | None => RClose TOk end)
                    (s_ch0 s) [c])
        | _ => None
        end
      else Some (set_reader s (s_src s) (RClose TSend) (s_ch0 s) (s_ch1 s))
  | RClose r => Some (set_reader s (s_src s) (RDone r) (s_ch0 s) (s_ch1 s))
  | RDone _ => None
  end.

(** One action of the converter thread, stream_pipeline.rs:207-216. *)
Definition step_codec (p : pipe) (s : pstate) : option pstate :=
  match s_cd s with
  | CWait =>
      match s_ch1 s with
      | c :: ch1 => Some (set_codec s (CConv c) ch1 (s_ch2 s))
      | [] => if read_sender_alive s then None else Some (set_codec s (CClose TOk) [] (s_ch2 s))
      end
  | CConv c =>
      match p_conv p (ck_buf c) (ck_last c) (ck_idx c) with
      | Ok b =>
          let c' := mkChunk b (grow (ck_cap c) (length b)) (ck_last c) (ck_idx c) in
          Some (set_codec s (CSend c') (s_ch1 s) (s_ch2 s))
      | Err e => Some (set_codec s (CClose (TErr e)) (s_ch1 s) (s_ch2 s))
      | Panic => Some (set_codec s (CClose TPanic) (s_ch1 s) (s_ch2 s))
      end
  | CSend c =>
      if write_receiver_alive s then
        match s_ch2 s with
        | [] => Some (set_codec s CWait (s_ch1 s) [c])
        | _ => None
        end
      else Some (set_codec s (CClose TSend) (s_ch1 s) (s_ch2 s))
  | CClose r => Some (set_codec s (CDone r) (s_ch1 s) (s_ch2 s))
  | CDone _ => None
  end.

(** One action of the writer thread, stream_pipeline.rs:218-231.  [n] is the number of bytes the sink
    takes in this [write] call (any number from 1 that it has room for). *)
Definition step_writer (n : nat) (s : pstate) : option pstate :=
  let w := s_sink s in
  match s_wr s with
  | WWait =>
      match s_ch2 s with
      | c :: ch2 => Some (set_writer s (WWrite c (ck_buf c)) w ch2 (s_ch3 s))
      | [] => if codec_sender_alive s then None else Some (set_writer s (WClose TOk) w [] (s_ch3 s))
      end
  | WWrite c [] =>
      Some (set_writer s (if ck_last c then WFlush c else WSend c) w (s_ch2 s) (s_ch3 s))
  | WWrite c rest =>
      match w_room w with
      | Some O => Some (set_writer s (WClose (TErr EIo)) w (s_ch2 s) (s_ch3 s))
      | room =>
          if Nat.leb 1 n && Nat.leb n (length rest)
             && match room with Some r => Nat.leb n r | None => true end
          then
            let w' := mkSink (w_out w ++ firstn n rest)
                        (match room with Some r => Some (r - n) | None => None end) (w_flush_ok w) false in
            Some (set_writer s (WWrite c (skipn n rest)) w' (s_ch2 s) (s_ch3 s))
          else None
      end
  | WFlush c =>
      match flush w with
      | (Ok _, w') => Some (set_writer s (WSend c) w' (s_ch2 s) (s_ch3 s))
      | (_, w') => Some (set_writer s (WClose (TErr EIo)) w' (s_ch2 s) (s_ch3 s))
      end
  | WSend c =>
      if final_receiver_alive s then Some (set_writer s WWait w (s_ch2 s) (s_ch3 s ++ [c]))
      else Some (set_writer s (WClose TSend) w (s_ch2 s) (s_ch3 s))
  | WClose r => Some (set_writer s (WDone r) w (s_ch2 s) (s_ch3 s))
  | WDone _ => None
  end.

(** [initial_sender.send(chunk).ok()]: the chunk is dropped if the reader is gone. *)
Definition supply (s : pstate) (c : chunk) : list chunk :=
  if read_receiver_alive s then s_ch0 s ++ [c] else s_ch0 s.

(** stream_pipeline.rs:128-151: the first real error in the order reader, converter, writer. *)
Definition thread_result (t : tres) : outcome err unit :=
  match t with
  | TOk | TSend => Ok tt
  | TErr e => Err e
  | TPanic => Err EThreadPanic
  end.
Definition join_result (r c w : tres) : outcome err unit :=
  let* _ := thread_result r in let* _ := thread_result c in thread_result w.

(** One action of the calling thread, stream_pipeline.rs:81-153. *)
Definition step_main (p : pipe) (s : pstate) : option pstate :=
  match s_mn s with
  | MInit (S k) =>                                              (* 85-95 *)
      let c := mkChunk (firstn (input_buffer_size p) (repeat x00 (buffer_capacity p)))
                 (buffer_capacity p) false (s_idx s) in
      Some (set_main s (MInit k) (supply s c) (s_ch3 s) (wrap64 (s_idx s + 1)) (s_progress s))
  | MInit O => Some (set_main s MWait (s_ch0 s) (s_ch3 s) (s_idx s) (s_progress s))
  | MWait =>
      match s_ch3 s with
      | c :: ch3 =>                                             (* 98-106; the subtraction wraps *)
          let written_bytes :=
            wrap64 (lenN (ck_buf c) + two64 - N.of_nat (p_out_asize p) + N.of_nat (p_in_asize p)) in
          let c := buf_resize c (input_buffer_size p) in
          if Nat.eqb (ck_cap c) (buffer_capacity p) then
            let c := mkChunk (ck_buf c) (ck_cap c) (ck_last c) (s_idx s) in
            Some (set_main s (MSend c written_bytes) (s_ch0 s) ch3 (wrap64 (s_idx s + 1)) (s_progress s))
          else Some (set_main s (MRet Panic) (s_ch0 s) ch3 (s_idx s) (s_progress s))
      | [] =>
          if write_sender_alive s then None
          else Some (set_main s MJoin (s_ch0 s) [] (s_idx s) (s_progress s))      (* 113-116 *)
      end
  | MSend c written_bytes =>                                    (* 109 *)
      Some (set_main s (MProgress written_bytes) (supply s c) (s_ch3 s) (s_idx s) (s_progress s))
  | MProgress written_bytes =>                                  (* 112 *)
      Some (set_main s MWait (s_ch0 s) (s_ch3 s) (s_idx s) (s_progress s ++ [written_bytes]))
  | MJoin =>                                                    (* 120-153 *)
      match s_rd s, s_cd s, s_wr s with
      | RDone r, CDone c, WDone w =>
          Some (set_main s (MRet (join_result r c w)) (s_ch0 s) (s_ch3 s) (s_idx s) (s_progress s))
      | _, _, _ => None
      end
  | MRet _ => None
  end.

(** The state right after the threads were spawned (line 79). *)
Definition start (src : source) (w : sink) : pstate :=
  mkPstate src (RWait None) [] [] CWait [] WWait w [] (MInit NUM_CHUNKS_IN_PIPELINE) 0 [].

(** One step of the pipeline: any thread may act. *)
Inductive step (p : pipe) (s s' : pstate) : Prop :=
| StepReader (H : step_reader s = Some s')
| StepCodec (H : step_codec p s = Some s')
| StepWriter (n : nat) (H : step_writer n s = Some s')
| StepMain (H : step_main p s = Some s').

(** Any number of steps. *)
Inductive steps (p : pipe) : pstate -> pstate -> Prop :=
| StepsRefl s : steps p s s
| StepsTrans s s' s'' : step p s s' -> steps p s' s'' -> steps p s s''.

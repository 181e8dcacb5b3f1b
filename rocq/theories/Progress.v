(** Model of progress.rs: the arithmetic of progress reporting.  The text of a progress line is in
    Layout; terminal errors are ignored by the code (progress.rs:61, 117-119).
    Instants are nanoseconds on the monotonic clock. *)
From Coq Require Import List NArith Bool.
From Verif Require Import Base CliErrors.
Import ListNotations.
Local Open Scope N_scope.

(** progress.rs:10-13 *)
Definition PRINT_PERIOD : N := 100.
Definition KEEP_STAMPS_COUNT : N := 100.

(** progress.rs:17-25.  [p_last] is [last_printed_period], with [None] for the initial -1; [p_lines]
    records the lines printed so far: bytes, speed, remaining seconds, final. *)
Record line := mkLine { l_bytes : N; l_speed : option N; l_eta : option N; l_final : bool }.
Record printer := mkPrinter {
  p_start : N;
  p_stamps : list (N * N);
  p_last : option N;
  p_once : bool;
  p_filesize : option N;
  p_written : N;
  p_lines : list line
}.

(** progress.rs:28-39 *)
Definition new_printer (now : N) : printer := mkPrinter now [(now, 0)] None false None 0 [].

(** progress.rs:41-43 *)
Definition set_filesize (p : printer) (filesize : option N) : printer :=
  mkPrinter (p_start p) (p_stamps p) (p_last p) (p_once p) filesize (p_written p) (p_lines p).

(** [Instant - Instant] panics if the result is negative; [as_millis]. *)
Definition millis_between {E} (later earlier : N) : outcome E N :=
  if later <? earlier then Panic else Ok ((later - earlier) / 1000000).

(** [usize] subtraction wraps in a release build; division by zero panics. *)
Definition sub64 (a b : N) : N := (a + two64 - b) mod two64.
Definition div64 {E} (a b : N) : outcome E N := if b =? 0 then Panic else Ok (a / b).

(** progress.rs:83-121 *)
Definition print_progress_line (p : printer) (is_final : bool) : outcome cerr printer :=
  match rev (p_stamps p), p_stamps p with
  | (end_period_time, end_period_progress) :: _, (start_period_time, start_period_progress) :: _ =>
      let* delta := millis_between end_period_time start_period_time in
      let delta_time := wrap64 delta in
      let delta_progress := sub64 end_period_progress start_period_progress in
      let speed := if 1000 <? delta_time then Some (wrap64 (delta_progress * 1000) / delta_time) else None in
      let written_bytes :=
        match p_filesize p with
        | Some filesize => if filesize <? end_period_progress then filesize else end_period_progress
        | None => end_period_progress
        end in
      let* eta :=
        match speed, p_filesize p with
        | Some speed, Some filesize =>
            let remaining := sub64 filesize written_bytes in
            let* eta_secs := div64 (sub64 (wrap64 (remaining + speed)) 1) speed in
            Ok (Some eta_secs)
        | _, _ => Ok None
        end in
      Ok (mkPrinter (p_start p) (p_stamps p) (p_last p) true (p_filesize p) (p_written p)
            (p_lines p ++ [mkLine written_bytes speed eta is_final]))
  | _, _ => Panic
  end.

(** progress.rs:64-81, called at time [now]. *)
Definition print_progress (p : printer) (now written_bytes : N) : outcome cerr printer :=
  let written := wrap64 (p_written p + written_bytes) in
  let* elapsed := millis_between now (p_start p) in
  let period_id := elapsed / PRINT_PERIOD in
  if match p_last p with Some q => period_id =? q | None => false end then
    match rev (p_stamps p) with
    | [] => Panic
    | _ :: r =>
        Ok (mkPrinter (p_start p) (rev r ++ [(now, written)]) (p_last p) (p_once p) (p_filesize p) written (p_lines p))
    end
  else
    let stamps := p_stamps p ++ [(now, written)] in
    let stamps := if KEEP_STAMPS_COUNT <? lenN stamps then tl stamps else stamps in
    print_progress_line (mkPrinter (p_start p) stamps (Some period_id) (p_once p) (p_filesize p) written (p_lines p)) false.

(** progress.rs:150-156: [Drop]. *)
Definition drop_printer (p : printer) : outcome cerr printer :=
  if p_once p then print_progress_line p true else Ok p.

(** The life of a printer in crypt.rs:28-68: created at [start], told the file size, notified, dropped. *)
Fixpoint notify_all (p : printer) (events : list (N * N)) : outcome cerr printer :=
  match events with
  | [] => Ok p
  | (now, n) :: events' => let* p := print_progress p now n in notify_all p events'
  end.
Definition report (start : N) (filesize : option N) (events : list (N * N)) : outcome cerr (list line) :=
  let* p := notify_all (set_filesize (new_printer start) filesize) events in
  let* p := drop_printer p in
  Ok (p_lines p).

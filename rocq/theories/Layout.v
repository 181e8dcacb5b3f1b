(** Model of the text of progress lines (progress.rs:123-147) and of the characters that show them on a
    terminal (ui.rs:151-158).  Floating point numbers that are not whole are a mantissa over a power of two. *)
From Coq.Strings Require Import Byte String.
From Coq Require Import List NArith Bool.
From Verif Require Import Base CliErrors Text Util Progress.
Import ListNotations.
Local Open Scope N_scope.

(** [(a as f64) / (b as f64)] for [0 < a < b] (progress.rs:131): the quotient, rounded to a 53 bit mantissa
    with ties to even.  The result is the mantissa and the exponent [k] of the denominator [2^k]. *)
Definition f64_ratio (a b : N) : N * N :=
  let k := 53 + N.size b - N.size a in
  let k := if 2 ^ 53 * b <=? a * 2 ^ k then k - 1 else k in
  (div_nearest N.odd (a * 2 ^ k) b, k).

(** [f64::min(ratio, 1.0)] (progress.rs:130-132).  A quotient of at least one needs no rounding here,
    because rounding cannot take it below one. *)
Definition clamped_ratio (written_bytes filesize : N) : N * N :=
  let a := to_f64 written_bytes in
  let b := to_f64 (N.max filesize 1) in
  if b <=? a then (1, 0) else if a =? 0 then (0, 0) else f64_ratio a b.

(** [format!("{:.1}", ratio * 100.0)] (progress.rs:132): the product is rounded to a 53 bit mantissa, and
    printing rounds it to the nearest tenth; as for [human_file_size], [up] decides a tie. *)
Definition percent_tenths (up : N -> bool) (written_bytes filesize : N) : N :=
  let '(m, k) := clamped_ratio written_bytes filesize in
  div_nearest up (10 * to_f64 (100 * m)) (2 ^ k).
Definition percent_text (up : N -> bool) (written_bytes filesize : N) : text :=
  let h := percent_tenths up written_bytes filesize in
  dec (h / 10) ++ [46] ++ dec (h mod 10).

(** [{:>n}] (std): padded with spaces on the left to [n] characters. *)
Definition pad_left (n : nat) (t : text) : text := repeat 32 (n - length t) ++ t.

(** progress.rs:123-147 *)
Definition format_progress_line {E} (up : N -> bool) (written_bytes : N) (filesize speed eta : option N) : outcome E text :=
  let percent := match filesize with
                 | Some filesize => percent_text up written_bytes filesize
                 | None => lit "---"
                 end in
  let* size := human_file_size up written_bytes in
  let* speed := match speed with
                | Some s => let* t := human_file_size up s in Ok (t ++ lit "/s")
                | None => Ok []
                end in
  let eta := match eta with
             | Some d => lit "ETA  " ++ human_duration d ++ lit "s"
             | None => []
             end in
  Ok (lit "   " ++ pad_left 5 percent ++ lit " % " ++ pad_left 14 size ++ lit " " ++
      pad_left 16 speed ++ lit "   " ++ eta).

(** terminal.rs:3 *)
Definition TERMINAL_CLEAR_LINE : text := [27; 91; 50; 75].

(** ui.rs:153-154: what [println_progress] prints. *)
Definition progress_message (message : text) (finish : bool) : text :=
  TERMINAL_CLEAR_LINE ++ message ++ (if finish then [10] else [13]).

(** progress.rs:115-119 *)
Definition draw_line {E} (up : N -> bool) (filesize : option N) (l : line) : outcome E text :=
  let* s := format_progress_line up (l_bytes l) filesize (l_speed l) (l_eta l) in
  Ok (progress_message s (l_final l)).

(** All that the lines of one report print, in order, when progress is enabled and the level is high enough. *)
Fixpoint draw_lines {E} (up : N -> bool) (filesize : option N) (ls : list line) : outcome E text :=
  match ls with
  | [] => Ok []
  | l :: ls' =>
      let* t := draw_line up filesize l in
      let* ts := draw_lines up filesize ls' in
      Ok (t ++ ts)
  end.

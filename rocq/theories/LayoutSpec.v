(** What a progress line says, and a small terminal, to say what a user sees of progress lines. *)
From Coq.Strings Require Import Byte String.
From Coq Require Import List NArith Bool.
From Verif Require Import Base Text UtilSpec.
Import ListNotations.
Local Open Scope N_scope.

(** ** The fields of a line *)

(** A size: a whole number of bytes, or a number with two decimals in the unit that fits, rounded. *)
Definition size_text (v : N) (t : text) : Prop :=
  exists i number, (i < 7)%nat /\ t = number ++ [32] ++ unit_text i /\
  ((i = O /\ v < 1024 /\ denotes number v) \/
   ((0 < i)%nat /\ 1024 ^ N.of_nat i <= v < 1024 ^ N.of_nat (S i) /\
    exists whole hundredths dw dh,
      number = dw ++ [46] ++ dh /\ denotes dw whole /\ two_digits dh hundredths /\
      2 ^ 53 * (2 * distance (100 * v) ((100 * whole + hundredths) * 1024 ^ N.of_nat i))
        <= 2 ^ 53 * 1024 ^ N.of_nat i + 200 * v)).

(** A time in seconds, as minutes and seconds, or hours, minutes and seconds. *)
Definition duration_text (t : N) (d : text) : Prop :=
  exists h m s dh dm ds,
  3600 * h + 60 * m + s = t /\ m < 60 /\ s < 60 /\ two_digits ds s /\
  ((h = 0 /\ denotes dm m /\ d = dm ++ [58] ++ ds) \/
   (0 < h /\ denotes dh h /\ two_digits dm m /\ d = dh ++ [58] ++ dm ++ [58] ++ ds)).

(** A percentage with one decimal: at most 100.0, and within 0.0501 of [100 * w / f]. *)
Definition percentage_text (w f : N) (t : text) : Prop :=
  exists whole tenth dw, t = dw ++ [46; 48 + tenth] /\ denotes dw whole /\ tenth < 10 /\
    10 * whole + tenth <= 1000 /\ 1000 * distance ((10 * whole + tenth) * f) (1000 * w) <= 501 * f.

(** [field n t c]: [c] is [t], right aligned in [n] columns. *)
Definition field (n : nat) (t c : text) : Prop := length c = n /\ exists k, c = repeat 32 k ++ t.

(** [line_text w f s e t]: [t] is the line for [w] bytes done of [f], at a speed of [s] bytes per second
    with [e] seconds to go.  "%" is always in column 10, and the size, the speed and the time end or
    start in columns 25, 42 and 46. *)
Definition line_text (w : N) (f s e : option N) (t : text) : Prop :=
  exists percent size speed eta cp cz cs,
    t = [32; 32; 32] ++ cp ++ [32; 37; 32] ++ cz ++ [32] ++ cs ++ [32; 32; 32] ++ eta /\
    field 5 percent cp /\ field 14 size cz /\ field 16 speed cs /\
    (match f with Some f => percentage_text w f percent | None => percent = [45; 45; 45] end) /\
    size_text w size /\
    (match s with Some s => exists z, size_text s z /\ speed = z ++ [47; 115] | None => speed = [] end) /\
    (match e with Some e => exists d, duration_text e d /\ eta = [69; 84; 65; 32; 32] ++ d ++ [115] | None => eta = [] end).

(** ** The terminal *)

(** The lines above the cursor, the line the cursor is in, and the column of the cursor. *)
Record screen := mkScreen { sc_above : list text; sc_line : text; sc_column : nat }.

Definition printable (c : char) : Prop := 32 <= c /\ c < 127.

(** A printable character overwrites the cell under the cursor; in the column after the last one it
    continues on a new line. *)
Definition type_char (width : nat) (s : screen) (c : char) : screen :=
  if Nat.ltb (sc_column s) width then
    mkScreen (sc_above s)
      (firstn (sc_column s) (sc_line s) ++ repeat 32 (sc_column s - length (sc_line s)) ++ [c] ++
       skipn (S (sc_column s)) (sc_line s))
      (S (sc_column s))
  else mkScreen (sc_above s ++ [sc_line s]) [c] 1.

(** Line feed (the tty turns it into a new line), carriage return, and "erase line" (ESC [ 2 K, which
    leaves the cursor where it is); everything else is typed. *)
Fixpoint shown (width : nat) (t : text) (s : screen) : screen :=
  match t with
  | [] => s
  | 27 :: 91 :: 50 :: 75 :: t' => shown width t' (mkScreen (sc_above s) [] (sc_column s))
  | c :: t' =>
      shown width t'
        (if c =? 10 then mkScreen (sc_above s ++ [sc_line s]) [] 0
         else if c =? 13 then mkScreen (sc_above s) (sc_line s) 0
         else type_char width s c)
  end.

(** The cursor is at the beginning of an empty line below the lines [above]. *)
Definition fresh_line (above : list text) : screen := mkScreen above [] 0.

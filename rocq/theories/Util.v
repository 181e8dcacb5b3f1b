(** Model of util.rs: human readable numbers, hexadecimal keys. *)
From Coq.Strings Require Import Byte String.
From Coq Require Import List NArith Bool.
From Verif Require Import Base Text.
Import ListNotations.
Local Open Scope N_scope.

(** An ASCII string literal of the source as a text. *)
Definition lit (s : string) : text := map b2n (list_byte_of_string s).

(** ** Decimal numbers *)

(** [format!("{}", n)] (std). *)
Fixpoint dec_fuel (fuel : nat) (n : N) (acc : text) : text :=
  match fuel with
  | O => acc
  | S fuel => let acc := (48 + n mod 10) :: acc in if n / 10 =? 0 then acc else dec_fuel fuel (n / 10) acc
  end.
Definition dec (n : N) : text := dec_fuel (S (N.size_nat n)) n [].
(** [format!("{:02}", n)] (std): padded with zeroes to two characters. *)
Definition dec2 (n : N) : text := repeat 48 (2 - length (dec n)) ++ dec n.

(** ** [human_file_size], util.rs:6-17 *)

Definition SCALES : list text :=
  [lit "B"; lit "KiB"; lit "MiB"; lit "GiB"; lit "TiB"; lit "PiB"; lit "EiB"].

(** [a / b] rounded to the nearest integer; [up] decides a tie. *)
Definition div_nearest (up : N -> bool) (a b : N) : N :=
  let q := a / b in
  match 2 * (a mod b) ?= b with
  | Lt => q
  | Eq => if up q then q + 1 else q
  | Gt => q + 1
  end.
(** [usize as f64]: the nearest number with a 53 bit mantissa, ties to even. *)
Definition to_f64 (n : N) : N :=
  if N.size n <=? 53 then n
  else let p := 2 ^ (N.size n - 53) in div_nearest N.odd n p * p.

(** util.rs:9-17.  [0usize.leading_zeros() - val.leading_zeros()] is the number of significant bits.
    The quotient by the power of two is exact in f64; [{:.2}] prints it rounded to the nearest
    hundredth.  How std breaks ties of that last rounding depends on its version: parameter [up]. *)
Definition human_file_size {E} (up : N -> bool) (val : N) : outcome E text :=
  let filled_bits := N.size val in
  let scale_idx := (filled_bits - 1) / 10 in
  match nth_error SCALES (N.to_nat scale_idx) with
  | None => Panic
  | Some scale =>
      Ok ((if scale_idx =? 0 then dec (to_f64 val)
           else let h := div_nearest up (100 * to_f64 val) (2 ^ (10 * scale_idx)) in
                dec (h / 100) ++ [46] ++ dec2 (h mod 100)) ++ [32] ++ scale)
  end.

(** ** [human_duration], util.rs:19-31; the argument is [dur.as_secs()] *)
Definition human_duration (time : N) : text :=
  let secs := time mod 60 in
  let time := time / 60 in
  let mins := time mod 60 in
  let hrs := time / 60 in
  if 0 <? hrs then dec hrs ++ [58] ++ dec2 mins ++ [58] ++ dec2 secs
  else dec mins ++ [58] ++ dec2 secs.

(** ** Hexadecimal text *)

Definition hex_digit (n : N) : char := if n <? 10 then 48 + n else 87 + n.
(** util.rs:33-40 *)
Definition to_hex_string (b : bytes) : text :=
  concat (map (fun x => [hex_digit (b2n x / 16); hex_digit (b2n x mod 16)]) b).

(** util.rs:59-65 *)
Definition checksum_case (hex_char hash_char : char) : char :=
  if 56 <=? hash_char then ascii_upper hex_char else ascii_lower hex_char.
(** util.rs:58: [zip] with [hash_hex_string.chars().cycle()]; [cur] is what is left of this round. *)
Fixpoint zip_cycle (all cur t : text) : text :=
  match t with
  | [] => []
  | c :: t' =>
      match cur with
      | h :: cur' => checksum_case c h :: zip_cycle all cur' t'
      | [] => match all with
              | h :: cur' => checksum_case c h :: zip_cycle all cur' t'
              | [] => []
              end
      end
  end.
(** util.rs:52-67; [sha512] is libsodium's hash function (util.rs:43-49). *)
Definition to_hex_string_checksummed (sha512 : bytes -> bytes) (b : bytes) : text :=
  let hash_hex_string := to_hex_string (sha512 b) in
  zip_cycle hash_hex_string hash_hex_string (to_hex_string b).

(** util.rs:70-79 *)
Inductive hex_error :=
| InvalidChar (c : char)
| InvalidLength
| InvalidChecksum (b : bytes).

(** util.rs:81-106: the loop with its variables [acc] and [cnt]; the accumulated result is returned
    outside in. *)
Fixpoint parse_hex_loop (t : text) (acc cnt : N) : outcome hex_error bytes :=
  match t with
  | [] => if 0 <? cnt then Err InvalidLength else Ok []
  | ch :: t' =>
      if (cnt =? 0) && is_whitespace ch then parse_hex_loop t' acc cnt
      else match hex_value ch with
           | Some val =>
               let acc := (acc * 16) mod 256 + val in
               let cnt := cnt + 1 in
               if cnt =? 2 then let* r := parse_hex_loop t' 0 0 in Ok (n2b acc :: r)
               else parse_hex_loop t' acc cnt
           | None => Err (InvalidChar ch)
           end
  end.
Definition try_parse_hex_string (t : text) : outcome hex_error bytes := parse_hex_loop t 0 0.

Fixpoint text_eqb (a b : text) : bool :=
  match a, b with
  | [], [] => true
  | x :: a', y :: b' => (x =? y) && text_eqb a' b'
  | _, _ => false
  end.
(** util.rs:108-116 *)
Definition try_parse_hex_string_checksummed (sha512 : bytes -> bytes) (t : text) : outcome hex_error bytes :=
  let* b := try_parse_hex_string t in
  if negb (text_eqb (to_hex_string_checksummed sha512 b) (remove_whitespace t))
  then Err (InvalidChecksum b) else Ok b.

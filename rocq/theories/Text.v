(** Text: Rust [char], [str] and [String].  A text is the list of its Unicode scalar values. *)
From Coq Require Import List NArith Bool.
From Coq.Strings Require Import Byte.
From Verif Require Import Base.
Import ListNotations.
Local Open Scope N_scope.

Notation char := N (only parsing).
Notation text := (list N) (only parsing).

(** [char::encode_utf8] (std): the bytes of one character in a [str]. *)
Definition encode_char (c : char) : bytes :=
  if c <? 128 then [n2b c]
  else if c <? 2048 then [n2b (192 + c / 64); n2b (128 + c mod 64)]
  else if c <? 65536 then [n2b (224 + c / 4096); n2b (128 + c / 64 mod 64); n2b (128 + c mod 64)]
  else [n2b (240 + c / 262144); n2b (128 + c / 4096 mod 64); n2b (128 + c / 64 mod 64); n2b (128 + c mod 64)].
Definition utf8 (t : text) : bytes := concat (map encode_char t).

(** [std::str::from_utf8] (ui.rs:176, and inside [fs::read_to_string], credentials.rs:394): valid text,
    or an error that says whether the input only ended too early ([Utf8Error::error_len] is [None]). *)
Inductive utf8_result :=
| Valid (t : text)
| Incomplete
| Invalid.

Definition between (lo hi : N) (b : byte) : bool := (lo <=? b2n b) && (b2n b <=? hi).
Definition cont : byte -> bool := between 128 191.
(** The second byte of a three or four byte character. *)
Definition second_ok (b0 b1 : byte) : bool :=
  let x := b2n b0 in
  if x =? 224 then between 160 191 b1
  else if x =? 237 then between 128 159 b1
  else if x =? 240 then between 144 191 b1
  else if x =? 244 then between 128 143 b1
  else cont b1.

Definition add_char (c : char) (r : utf8_result) : utf8_result :=
  match r with Valid t => Valid (c :: t) | r => r end.

Fixpoint from_utf8 (l : bytes) : utf8_result :=
  match l with
  | [] => Valid []
  | b0 :: l1 =>
      let x0 := b2n b0 in
      if x0 <? 128 then add_char x0 (from_utf8 l1)
      else if between 194 223 b0 then
        match l1 with
        | [] => Incomplete
        | b1 :: l2 =>
            if cont b1 then add_char ((x0 - 192) * 64 + (b2n b1 - 128)) (from_utf8 l2) else Invalid
        end
      else if between 224 239 b0 then
        match l1 with
        | [] => Incomplete
        | b1 :: l2 =>
            if second_ok b0 b1 then
              match l2 with
              | [] => Incomplete
              | b2 :: l3 =>
                  if cont b2 then
                    add_char ((x0 - 224) * 4096 + (b2n b1 - 128) * 64 + (b2n b2 - 128)) (from_utf8 l3)
                  else Invalid
              end
            else Invalid
        end
      else if between 240 244 b0 then
        match l1 with
        | [] => Incomplete
        | b1 :: l2 =>
            if second_ok b0 b1 then
              match l2 with
              | [] => Incomplete
              | b2 :: l3 =>
                  if cont b2 then
                    match l3 with
                    | [] => Incomplete
                    | b3 :: l4 =>
                        if cont b3 then
                          add_char ((x0 - 240) * 262144 + (b2n b1 - 128) * 4096 + (b2n b2 - 128) * 64 + (b2n b3 - 128))
                            (from_utf8 l4)
                        else Invalid
                    end
                  else Invalid
              end
            else Invalid
        end
      else Invalid
  end.

(** [char::is_whitespace] (std): the Unicode property White_Space. *)
Definition is_whitespace (c : char) : bool :=
  ((9 <=? c) && (c <=? 13)) || (c =? 32) || (c =? 133) || (c =? 160) || (c =? 5760) ||
  ((8192 <=? c) && (c <=? 8202)) || (c =? 8232) || (c =? 8233) || (c =? 8239) || (c =? 8287) || (c =? 12288).

(** [str::replace(char::is_whitespace, "")] (util.rs:110, credentials.rs:369). *)
Definition remove_whitespace (t : text) : text := filter (fun c => negb (is_whitespace c)) t.

(** [str::trim] (std; credentials.rs:396). *)
Fixpoint trim_start (t : text) : text :=
  match t with
  | c :: t' => if is_whitespace c then trim_start t' else t
  | [] => []
  end.
Definition trim (t : text) : text := rev (trim_start (rev (trim_start t))).

(** [str::lines] (std; credentials.rs:395): split at line feeds, drop one carriage return before each,
    and no empty last line. *)
Definition drop_cr (t : text) : text :=
  match rev t with
  | c :: r => if c =? 13 then rev r else t
  | [] => t
  end.
(** The text before the first line feed and, if there is one, the text after it. *)
Fixpoint split_line (t : text) : text * option text :=
  match t with
  | [] => ([], None)
  | c :: t' => if c =? 10 then ([], Some t') else let '(a, r) := split_line t' in (c :: a, r)
  end.
(** The carriage return is dropped on the last line too (Rust of 2019). *)
Fixpoint lines_fuel (fuel : nat) (t : text) : list text :=
  match fuel, t with
  | S fuel, _ :: _ =>
      match split_line t with
      | (a, Some r) => drop_cr a :: lines_fuel fuel r
      | (a, None) => [drop_cr a]
      end
  | _, _ => []
  end.
Definition lines (t : text) : list text := lines_fuel (length t) t.

(** [char::to_digit(16)] (std; util.rs:89). *)
Definition hex_value (c : char) : option N :=
  if (48 <=? c) && (c <=? 57) then Some (c - 48)
  else if (97 <=? c) && (c <=? 102) then Some (c - 87)
  else if (65 <=? c) && (c <=? 70) then Some (c - 55)
  else None.

(** [char::to_ascii_uppercase], [char::to_ascii_lowercase] (std; util.rs:60-62, ui.rs:51). *)
Definition ascii_upper (c : char) : char := if (97 <=? c) && (c <=? 122) then c - 32 else c.
Definition ascii_lower (c : char) : char := if (65 <=? c) && (c <=? 90) then c + 32 else c.

(** [str::split_at] (std; credentials.rs:378): at a byte position, which must be a character boundary. *)
Fixpoint split_at_byte {E} (n : N) (t : text) : outcome E (text * text) :=
  if n =? 0 then Ok ([], t)
  else match t with
       | [] => Panic
       | c :: t' =>
           let k := lenN (encode_char c) in
           if n <? k then Panic
           else let* (a, b) := split_at_byte (n - k) t' in Ok (c :: a, b)
       end.

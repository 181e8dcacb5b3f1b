(** Model of [src/shamir/gf256.rs]. *)
From Coq Require Import List NArith Bool.
From Coq.Strings Require Import Byte.
From Verif Require Import Base.
Import ListNotations.
Local Open Scope N_scope.

(** gf256.rs:67-84, table copied verbatim. *)
Definition GF256_EXP : list byte := [
  x01; x03; x05; x0f; x11; x33; x55; xff; x1a; x2e; x72; x96; xa1; xf8; x13; x35;
  x5f; xe1; x38; x48; xd8; x73; x95; xa4; xf7; x02; x06; x0a; x1e; x22; x66; xaa;
  xe5; x34; x5c; xe4; x37; x59; xeb; x26; x6a; xbe; xd9; x70; x90; xab; xe6; x31;
  x53; xf5; x04; x0c; x14; x3c; x44; xcc; x4f; xd1; x68; xb8; xd3; x6e; xb2; xcd;
  x4c; xd4; x67; xa9; xe0; x3b; x4d; xd7; x62; xa6; xf1; x08; x18; x28; x78; x88;
  x83; x9e; xb9; xd0; x6b; xbd; xdc; x7f; x81; x98; xb3; xce; x49; xdb; x76; x9a;
  xb5; xc4; x57; xf9; x10; x30; x50; xf0; x0b; x1d; x27; x69; xbb; xd6; x61; xa3;
  xfe; x19; x2b; x7d; x87; x92; xad; xec; x2f; x71; x93; xae; xe9; x20; x60; xa0;
  xfb; x16; x3a; x4e; xd2; x6d; xb7; xc2; x5d; xe7; x32; x56; xfa; x15; x3f; x41;
  xc3; x5e; xe2; x3d; x47; xc9; x40; xc0; x5b; xed; x2c; x74; x9c; xbf; xda; x75;
  x9f; xba; xd5; x64; xac; xef; x2a; x7e; x82; x9d; xbc; xdf; x7a; x8e; x89; x80;
  x9b; xb6; xc1; x58; xe8; x23; x65; xaf; xea; x25; x6f; xb1; xc8; x43; xc5; x54;
  xfc; x1f; x21; x63; xa5; xf4; x07; x09; x1b; x2d; x77; x99; xb0; xcb; x46; xca;
  x45; xcf; x4a; xde; x79; x8b; x86; x91; xa8; xe3; x3e; x42; xc6; x51; xf3; x0e;
  x12; x36; x5a; xee; x29; x7b; x8d; x8c; x8f; x8a; x85; x94; xa7; xf2; x0d; x17;
  x39; x4b; xdd; x7c; x84; x97; xa2; xfd; x1c; x24; x6c; xb4; xc7; x52; xf6
].

(** gf256.rs:86-103, table copied verbatim. *)
Definition GF256_LOG : list byte := [
  x00; x00; x19; x01; x32; x02; x1a; xc6; x4b; xc7; x1b; x68; x33; xee; xdf; x03;
  x64; x04; xe0; x0e; x34; x8d; x81; xef; x4c; x71; x08; xc8; xf8; x69; x1c; xc1;
  x7d; xc2; x1d; xb5; xf9; xb9; x27; x6a; x4d; xe4; xa6; x72; x9a; xc9; x09; x78;
  x65; x2f; x8a; x05; x21; x0f; xe1; x24; x12; xf0; x82; x45; x35; x93; xda; x8e;
  x96; x8f; xdb; xbd; x36; xd0; xce; x94; x13; x5c; xd2; xf1; x40; x46; x83; x38;
  x66; xdd; xfd; x30; xbf; x06; x8b; x62; xb3; x25; xe2; x98; x22; x88; x91; x10;
  x7e; x6e; x48; xc3; xa3; xb6; x1e; x42; x3a; x6b; x28; x54; xfa; x85; x3d; xba;
  x2b; x79; x0a; x15; x9b; x9f; x5e; xca; x4e; xd4; xac; xe5; xf3; x73; xa7; x57;
  xaf; x58; xa8; x50; xf4; xea; xd6; x74; x4f; xae; xe9; xd5; xe7; xe6; xad; xe8;
  x2c; xd7; x75; x7a; xeb; x16; x0b; xf5; x59; xcb; x5f; xb0; x9c; xa9; x51; xa0;
  x7f; x0c; xf6; x6f; x17; xc4; x49; xec; xd8; x43; x1f; x2d; xa4; x76; x7b; xb7;
  xcc; xbb; x3e; x5a; xfb; x60; xb1; x86; x3b; x52; xa1; x6c; xaa; x55; x29; x9d;
  x97; xb2; x87; x90; x61; xbe; xdc; xfc; xbc; x95; xcf; xcd; x37; x3f; x5b; xd1;
  x53; x39; x84; x3c; x41; xa2; x6d; x47; x14; x2a; x9e; x5d; x56; xf2; xd3; xab;
  x44; x11; x92; xd9; x23; x20; x2e; x89; xb4; x7c; xb8; x26; x77; x99; xe3; xa5;
  x67; x4a; xed; xde; xc5; x31; xfe; x18; x0d; x63; x8c; x80; xc0; xf7; x70; x07
].

(** gf256.rs:54-56 [Gf256::exp]; the index [power % 255] is always inside the 255-entry table. *)
Definition gf_exp (power : N) : byte := nth (N.to_nat (power mod 255)) GF256_EXP x00.

(** gf256.rs:58-64 [Gf256::log]. *)
Definition gf_log (a : byte) : option N :=
  if beqb a x00 then None else Some (b2n (nth (N.to_nat (b2n a)) GF256_LOG x00)).

(** gf256.rs:12-20 [Gf256::zero], [Gf256::one]. *)
Definition gf_zero : byte := x00.
Definition gf_one : byte := x01.

(** gf256.rs:105-111 [Add], 113-118 [AddAssign]. *)
Definition gf_add (a b : byte) : byte := bxor a b.

(** gf256.rs:120-126 [Sub], 128-133 [SubAssign]. *)
Definition gf_sub (a b : byte) : byte := bxor a b.

(** gf256.rs:135-145 [Mul], 147-151 [MulAssign]. *)
Definition gf_mul (a b : byte) : byte :=
  match gf_log a with
  | Some log1 =>
      match gf_log b with
      | Some log2 => gf_exp (log1 + log2)
      | None => x00
      end
  | None => x00
  end.

(** gf256.rs:153-162 [Div], 164-168 [DivAssign]; [expect("division by zero")] is the panic. *)
Definition gf_div {E} (a b : byte) : outcome E byte :=
  match gf_log b with
  | None => Panic
  | Some log2 =>
      match gf_log a with
      | Some log1 => Ok (gf_exp (log1 + 255 - log2))
      | None => Ok x00
      end
  end.

(** gf256.rs:46-52 [Gf256::add_mul_slice]: [res[i] += a[i] * b], asserting equal lengths. *)
Definition gf_add_mul_slice {E} (res a : bytes) (b : byte) : outcome E bytes :=
  let* _ := assert (Nat.eqb (length res) (length a)) in
  Ok (map2 (fun r x => gf_add r (gf_mul x b)) res a).

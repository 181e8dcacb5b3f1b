(** Model of [src/shamir/mod.rs]: threshold secret sharing. *)
From Coq Require Import List NArith Bool.
From Coq.Strings Require Import Byte.
From Verif Require Import Base Gf256.
Import ListNotations.
Local Open Scope N_scope.

(** The random generator ([crypto/rng.rs], [CryptoSystemRng]): an unlimited supply of bytes; the
    theorems quantify over it.  [rng_fill n] is [rng.fill(&mut buf)] for a buffer of [n] bytes. *)
Definition rng := nat -> byte.
Definition rng_fill (n : nat) (r : rng) : bytes * rng :=
  (map r (seq 0 n), fun i => r (n + i)%nat).

(** shamir/mod.rs:11-39 [SecretShareError]. *)
Inductive share_error :=
| ZeroThreshold
| NotEnoughShares (num_shares threshold : N)
| TooManySharesRequested (num_shares max_shares : N)
| DifferentLengthShares
| ShareIndexTooLarge (idx max_idx : N)
| SharesWithSameIndices.

(** shamir/mod.rs:41 *)
Definition MAX_SHARES : N := 255.

(** shamir/mod.rs:72-82: the view [(x, x^i, share)] of one share. *)
Definition share_view := (byte * byte * bytes)%type.

(** shamir/mod.rs:88-92: one pass over the shares for one random row. *)
Definition add_random_row (random : bytes) (v : share_view) : outcome share_error share_view :=
  let '(x, xi, share) := v in
  let xi := gf_mul xi x in
  let* share := gf_add_mul_slice share random xi in
  Ok (x, xi, share).

(** shamir/mod.rs:84-93: the loop [for _ in 1..threshold], [rounds] = threshold - 1. *)
Fixpoint share_loop (rounds secret_len : nat) (views : list share_view) (r : rng)
  : outcome share_error (list share_view * rng) :=
  match rounds with
  | O => Ok (views, r)
  | S rounds =>
      let '(random, r) := rng_fill secret_len r in
      let* views := map_out (add_random_row random) views in
      share_loop rounds secret_len views r
  end.

(** shamir/mod.rs:46-97 [create_secret_shares]; also returns the advanced generator. *)
Definition create_secret_shares (secret : bytes) (num_shares threshold : N) (r : rng)
  : outcome share_error (list bytes * rng) :=
  if threshold =? 0 then Err ZeroThreshold
  else if num_shares <? threshold then Err (NotEnoughShares num_shares threshold)
  else if MAX_SHARES <? num_shares then Err (TooManySharesRequested num_shares MAX_SHARES)
  else
    let views := map (fun i => (n2b (N.of_nat i + 1), gf_one, secret))
                     (seq 0 (N.to_nat num_shares)) in
    let* (views, r) := share_loop (N.to_nat threshold - 1) (length secret) views r in
    Ok (map (fun '(_, _, share) => share) views, r).

(** shamir/mod.rs:110 [share_indices.sort()]. *)
Fixpoint insert_sorted (x : N) (l : list N) : list N :=
  match l with
  | [] => [x]
  | y :: l' => if x <=? y then x :: l else y :: insert_sorted x l'
  end.
Definition sort_indices (l : list N) : list N := fold_right insert_sorted [] l.

(** shamir/mod.rs:111 [share_indices.dedup()]: drops consecutive repetitions. *)
Fixpoint dedup (l : list N) : list N :=
  match l with
  | [] => []
  | x :: l' =>
      match l' with
      | [] => [x]
      | y :: _ => if x =? y then dedup l' else x :: dedup l'
      end
  end.

(** shamir/mod.rs:127-137: a share seen in the field; [idx + 1] wraps in a release build. *)
Definition share_point (s : N * bytes) : outcome share_error (byte * bytes) :=
  let '(idx, share) := s in
  let idx1 := wrap64 (idx + 1) in
  if idx1 <? 256 then Ok (n2b idx1, share) else Err (ShareIndexTooLarge idx MAX_SHARES).

(** shamir/mod.rs:151-154: Lagrange basis function of [ui] evaluated at zero. *)
Fixpoint lagrange_at_zero (ui : byte) (acc : byte) (points : list byte) : outcome share_error byte :=
  match points with
  | [] => Ok acc
  | uj :: points =>
      if beqb uj ui then lagrange_at_zero ui acc points
      else
        let* acc := gf_div (gf_mul acc uj) (gf_sub uj ui) in
        lagrange_at_zero ui acc points
  end.

(** shamir/mod.rs:149-159: accumulation of [share * li]. *)
Fixpoint interpolate (all : list byte) (shares : list (byte * bytes)) (secret : bytes)
  : outcome share_error bytes :=
  match shares with
  | [] => Ok secret
  | (ui, share) :: shares =>
      let* li := lagrange_at_zero ui gf_one all in
      let* secret := gf_add_mul_slice secret share li in
      interpolate all shares secret
  end.

(** shamir/mod.rs:100-161 [recover_secret]. *)
Definition recover_secret (shares : list (N * bytes)) (threshold : N) : outcome share_error bytes :=
  if threshold =? 0 then Err ZeroThreshold
  else
    let indices := dedup (sort_indices (map fst shares)) in
    if negb (Nat.eqb (length indices) (length shares)) then Err SharesWithSameIndices
    else if lenN shares <? threshold then Err (NotEnoughShares (lenN shares) threshold)
    else
      let* points := map_out share_point (firstn (N.to_nat threshold) shares) in
      match points with
      | [] => Panic
      | (_, s0) :: _ =>
          let secret_len := length s0 in
          if existsb (fun p => negb (Nat.eqb (length (snd p)) secret_len)) points
          then Err DifferentLengthShares
          else interpolate (map fst points) points (repeat x00 secret_len)
      end.

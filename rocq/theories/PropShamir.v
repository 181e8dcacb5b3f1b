(** Properties C01-C04: byte field and secret sharing. *)
From Coq Require Import List NArith Bool Lia.
From Coq.Strings Require Import Byte.
From Verif Require Import Base BaseFacts Gf256 GfSpec GfProofs Shamir ShamirSpec PolyProofs ShamirProofs
  ShamirSecrecy.
Import ListNotations.

(** ** C01 *)

Theorem C01_gf256_is_the_aes_field :
  (forall a b, gf_add a b = bxor a b /\ gf_sub a b = bxor a b) /\
  (forall a b, gf_mul a b = aes_mul a b) /\
  (forall a b, gf_add (gf_sub a b) b = a) /\
  (forall a b c, gf_add (gf_add a b) c = gf_add a (gf_add b c)) /\
  (forall a b, gf_add a b = gf_add b a) /\
  (forall a, gf_add a gf_zero = a) /\
  (forall a b c, gf_mul (gf_mul a b) c = gf_mul a (gf_mul b c)) /\
  (forall a b, gf_mul a b = gf_mul b a) /\
  (forall a, gf_mul a gf_one = a) /\
  (forall a b c, gf_mul a (gf_add b c) = gf_add (gf_mul a b) (gf_mul a c)) /\
  (forall E a b c, b <> x00 -> (@gf_div E a b = Ok c <-> aes_mul c b = a)) /\
  (forall E a b, @gf_div E a b = Panic <-> b = x00).
Proof.
  repeat match goal with |- _ /\ _ => split end.
  - split; reflexivity.
  - exact gf_mul_is_aes_mul.
  - intros a b. apply bxor_cancel_r.
  - exact bxor_assoc.
  - exact bxor_comm.
  - exact bxor_0_r.
  - intros. symmetry. apply gf_mul_assoc.
  - exact gf_mul_comm.
  - exact gf_mul_1_r.
  - exact gf_distr_r.
  - intros. rewrite <- gf_mul_is_aes_mul. now apply gf_div_unique.
  - exact @gf_div_panic.
Qed.
Print Assumptions C01_gf256_is_the_aes_field.

(** FIPS-197 section 4.2: {57} x {83} = {c1}. *)
Example C01_case : aes_mul x57 x83 = xc1 /\ @gf_div unit xc1 x83 = Ok x57 /\ @gf_div unit xc1 x00 = Panic.
Proof. repeat split. Qed.

(** ** C02 *)

Theorem C02_threshold_shares_recover_secret :
  forall (secret : bytes) (n t : N) (r : rng) (idxs : list N),
  (1 <= t)%N -> (t <= n)%N -> (n <= 255)%N ->
  NoDup idxs -> Forall (fun i => i < n)%N idxs -> (t <= lenN idxs)%N ->
  exists shares r',
    create_secret_shares secret n t r = Ok (shares, r') /\
    length shares = N.to_nat n /\
    Forall (fun s => length s = length secret) shares /\
    recover_secret (map (fun i => (i, nth (N.to_nat i) shares [])) idxs) t = Ok secret.
Proof. exact recover_from_shares. Qed.
Print Assumptions C02_threshold_shares_recover_secret.

(** Shares are the values of a polynomial whose constant term is the secret and whose other
    coefficients are the random bytes, at the points 1..n. *)
Theorem C02_shares_are_polynomial_values :
  forall (secret : bytes) (n t : N) (r : rng),
  (1 <= t)%N -> (t <= n)%N -> (n <= 255)%N ->
  exists shares r',
    create_secret_shares secret n t r = Ok (shares, r') /\
    length shares = N.to_nat n /\
    (forall i j, i < N.to_nat n -> j < length secret ->
       nth j (nth i shares []) x00
       = poly_eval (nth j secret x00
                    :: map (fun m => r (m * length secret + j)) (seq 0 (N.to_nat t - 1)))
                   (n2b (N.of_nat i + 1))) /\
    (forall i, r' i = r ((N.to_nat t - 1) * length secret + i)).
Proof.
  intros secret n t r H1 H2 H3.
  destruct (create_closed_form secret n t r H1 H2 H3) as (r' & HC & Hr).
  eexists _, r'. split; [exact HC|]. rewrite map_length, seq_length.
  split; [reflexivity|]. split; [|exact Hr].
  intros i j Hi Hj. rewrite (nth_map_lt _ _ _ 0) by now rewrite seq_length.
  rewrite seq_nth by assumption. unfold share_at. rewrite nth_map_seq by assumption.
  rewrite peval_poly_eval. reflexivity.
Qed.
Print Assumptions C02_shares_are_polynomial_values.

Definition example_rng : rng := fun i => n2b (N.of_nat (i * 7 + 3)).

(** 5 shares, threshold 3, recovered from shares 4, 0, 2 (and an extra share 1). *)
Example C02_case :
  match create_secret_shares [x73; x33; x63] 5 3 example_rng with
  | Ok (shares, _) =>
      recover_secret (map (fun i => (i, nth (N.to_nat i) shares [])) [4; 0; 2; 1]%N) 3
      = Ok [x73; x33; x63]
      /\ nth 4 shares [] <> [x73; x33; x63]
  | _ => False
  end.
Proof. vm_compute. split; [reflexivity|discriminate]. Qed.

(** ** C03 *)

Theorem C03_fewer_shares_reveal_nothing :
  forall (secret : bytes) (n t : N) (idxs : list N) (obs : list bytes),
  (1 <= t)%N -> (t <= n)%N -> (n <= 255)%N ->
  NoDup idxs -> (lenN idxs = t - 1)%N -> Forall (fun i => i < n)%N idxs ->
  length obs = length idxs -> Forall (fun o => length o = length secret) obs ->
  exists! random : bytes,
    length random = (N.to_nat t - 1) * length secret /\
    forall r, rng_starts_with random r ->
      exists shares r',
        create_secret_shares secret n t r = Ok (shares, r') /\
        map (fun i => nth (N.to_nat i) shares []) idxs = obs.
Proof. exact secrecy_unique. Qed.
Print Assumptions C03_fewer_shares_reveal_nothing.

(** The hypotheses are satisfiable: two shares of a 3-of-5 split of a 2-byte secret. *)
Example C03_case :
  (1 <= 3)%N /\ (3 <= 5)%N /\ (5 <= 255)%N /\ NoDup [4; 1]%N /\ (lenN [4; 1]%N = 3 - 1)%N /\
  Forall (fun i => i < 5)%N [4; 1]%N /\
  length [[x00; x01]; [xff; x7f]] = length [4; 1]%N /\
  Forall (fun o => length o = length [x61; x62]) [[x00; x01]; [xff; x7f]].
Proof.
  repeat split; try (vm_compute; congruence); repeat constructor; simpl; try lia;
    intros [H|H]; try discriminate; auto.
Qed.

(** ** C04 *)

Theorem C04_share_creation_errors :
  forall (secret : bytes) (n t : N) (r : rng),
  create_secret_shares secret n t r <> Panic /\
  ((exists v, create_secret_shares secret n t r = Ok v) <-> (1 <= t /\ t <= n /\ n <= 255)%N) /\
  (t = 0%N -> create_secret_shares secret n t r = Err ZeroThreshold) /\
  (t <> 0%N -> (n < t)%N -> create_secret_shares secret n t r = Err (NotEnoughShares n t)) /\
  (t <> 0%N -> (t <= n)%N -> (255 < n)%N ->
     create_secret_shares secret n t r = Err (TooManySharesRequested n 255)).
Proof. exact create_errors. Qed.
Print Assumptions C04_share_creation_errors.

Theorem C04_share_recovery_accepts_exactly :
  forall (shares : list (N * bytes)) (t : N),
  recover_secret shares t <> Panic /\
  ((exists s, recover_secret shares t = Ok s) <->
   (t <> 0)%N /\ NoDup (map fst shares) /\ (t <= lenN shares)%N /\
   Forall (fun s => wrap64 (fst s + 1) < 256)%N (firstn (N.to_nat t) shares) /\
   (forall s s', In s (firstn (N.to_nat t) shares) -> In s' (firstn (N.to_nat t) shares) ->
      length (snd s) = length (snd s'))).
Proof. intros. split; [apply recover_never_panics | apply recover_ok_iff]. Qed.
Print Assumptions C04_share_recovery_accepts_exactly.

Theorem C04_share_recovery_error_kinds :
  forall (shares : list (N * bytes)) (t : N) (e : share_error),
  recover_secret shares t = Err e ->
  match e with
  | ZeroThreshold => t = 0%N
  | SharesWithSameIndices => t <> 0%N /\ ~ NoDup (map fst shares)
  | NotEnoughShares n t' => n = lenN shares /\ t' = t /\ (n < t)%N /\ NoDup (map fst shares)
  | ShareIndexTooLarge i m =>
      m = 255%N /\ In i (map fst (firstn (N.to_nat t) shares)) /\ (256 <= wrap64 (i + 1))%N
  | DifferentLengthShares =>
      exists s s', In s (firstn (N.to_nat t) shares) /\ In s' (firstn (N.to_nat t) shares) /\
                   length (snd s) <> length (snd s')
  | TooManySharesRequested _ _ => False
  end.
Proof. exact recover_errors. Qed.
Print Assumptions C04_share_recovery_error_kinds.

Example C04_cases :
  recover_secret [(0, [x01]); (0, [x02])]%N 1 = Err SharesWithSameIndices /\
  recover_secret [(0, [x01]); (255, [x02])]%N 2 = Err (ShareIndexTooLarge 255 255) /\
  recover_secret [(0, [x01]); (254, [x02; x03])]%N 2 = Err DifferentLengthShares /\
  recover_secret [(0, [x01]); (254, [x02])]%N 2 <> Err DifferentLengthShares.
Proof. repeat split; vm_compute; congruence. Qed.

(** C05, C06: splitting a group key into parts and recombining them. *)
From Coq Require Import List NArith Bool Lia.
From Coq.Strings Require Import Byte.
From Verif Require Import Base BaseFacts Shamir ShamirSpec ShamirProofs ShamirSecrecy Errors HeaderIo Crypto Proto
  HeaderCrypto SplitProofs.
Import ListNotations.
Local Open Scope N_scope.

(** A split is accepted exactly for these parameters (the product cannot overflow for real keys). *)
Theorem C05_split_acceptance :
  forall (key : bytes) (n t : N) (r : rng),
    lenN key * n < 2 ^ 64 ->
    ((exists parts r', split_key_into_key_parts key n t r = Ok (parts, r') /\ lenN parts = n /\
                       Forall (fun s => length s = length key) parts)
     <-> (1 <= t /\ t <= n /\ lenN key * n < 16 * 1024 * 1024 /\ (t = 1 \/ t = n \/ n <= 255))).
Proof. exact split_acceptance. Qed.
Print Assumptions C05_split_acceptance.

(** Any selection of distinct parts, in any order, gives the key iff it has threshold many parts. *)
Theorem C05_recombination :
  forall (key : bytes) (n t : N) (r : rng) (parts : list bytes) (r' : rng) (idxs : list N),
    split_key_into_key_parts key n t r = Ok (parts, r') ->
    NoDup idxs -> Forall (fun i => i < n) idxs ->
    recombine (one_to_zero t) (map (fun i => (i, nth (N.to_nat i) parts [])) idxs) n
    = Ok (if t <=? lenN idxs then Some key else None).
Proof. exact recombine_selection. Qed.
Print Assumptions C05_recombination.

(** OR, AND and threshold groups. *)
Definition C05_rng : rng := fun i => n2b (N.of_nat (7 * i + 3)).
Definition C05_key : bytes := [x11; x22; x33].
Example C05_case : forall t idxs,
  In (t, idxs) [(1, [2]); (4, [3; 0; 2; 1]); (3, [3; 1; 0]); (2, [0; 3])] ->
  exists parts r', split_key_into_key_parts C05_key 4 t C05_rng = Ok (parts, r') /\
    recombine (one_to_zero t) (map (fun i => (i, nth (N.to_nat i) parts [])) idxs) 4 = Ok (Some C05_key) /\
    (t <> 1 -> recombine (one_to_zero t) (map (fun i => (i, nth (N.to_nat i) parts [])) (tl idxs)) 4 = Ok None).
Proof.
  intros t idxs H. simpl in H.
  decompose [or] H; try contradiction;
    match goal with E : (_, _) = (_, _) |- _ => injection E as <- <- end; eexists _, _;
    (split; [reflexivity|]); split; try (intros C; now destruct (C eq_refl)); intros; reflexivity.
Qed.

(** C06: [xshows] is "splitting [key] into [n] parts, all required, shows [obs] at positions [idxs]".
    For every key and every observation of n-1 parts exactly one random input explains it. *)
Theorem C06_and_parts_are_individually_useless :
  forall (key : bytes) (n : N) (idxs : list N) (obs : list bytes),
    2 <= n -> lenN key * n < 16 * 1024 * 1024 ->
    NoDup idxs -> lenN idxs = n - 1 -> Forall (fun i => i < n) idxs ->
    length obs = length idxs -> Forall (fun o => length o = length key) obs ->
    exists! coins, length coins = ((N.to_nat n - 1) * length key)%nat /\
      forall r, rng_starts_with coins r ->
        exists parts r', split_key_into_key_parts key n n r = Ok (parts, r') /\
                         map (fun i => nth (N.to_nat i) parts []) idxs = obs.
Proof.
  intros. apply xor_secrecy_unique; auto.
Qed.
Print Assumptions C06_and_parts_are_individually_useless.

(** Two different keys, same two shown parts. *)
Example C06_case : forall key, In key [[x10]; [x77]] ->
  exists coins, forall r, rng_starts_with coins r ->
    exists parts r', split_key_into_key_parts key 3 3 r = Ok (parts, r') /\
                     map (fun i => nth (N.to_nat i) parts []) [2; 0] = [[x05]; [x06]].
Proof.
  intros key Hk.
  assert (L : length key = 1%nat) by (simpl in Hk; decompose [or] Hk; subst; tauto).
  destruct (C06_and_parts_are_individually_useless key 3 [2; 0] [[x05]; [x06]]) as (c & (_ & H) & _);
    try (unfold lenN; rewrite ?L; repeat constructor; simpl; lia); eauto.
Qed.

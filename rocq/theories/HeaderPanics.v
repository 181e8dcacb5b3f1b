(** Encryption crashes only if there are too many shares to count. *)
From Coq.Strings Require Import Byte String.
From Coq Require Import List NArith ZArith Bool PeanoNat Lia.
From Verif Require Import Base BaseFacts ShamirSpec Shamir ShamirProofs Errors HeaderIo Crypto Proto HeaderCrypto
  SplitProofs CredSpec HeaderCryptoProofs HeaderCryptoProofs2 HeaderCryptoProofs3 HeaderCryptoProofs4 CliSpec.
Import ListNotations.
Local Open Scope N_scope.

Lemma bind_panic_out {E A B} (x : outcome E A) (f : A -> outcome E B) : bind x f = Panic -> x = Panic \/ exists a, x = Ok a /\ f a = Panic.
Proof. destruct x as [a|e|]; cbn [bind]; [eauto|discriminate|auto]. Qed.

Lemma fold_or {A} (P : A -> Prop) l a : In a l -> P a -> fold_right or False (map P l).
Proof. induction l as [|x l IH]; cbn; [tauto|]. intros [->|I] H; [left; exact H|right; exact (IH I H)]. Qed.

Lemma fits_or_enormous c : fits c \/ enormous c.
Proof.
  induction c as [p|k|k|k|subs n t IH] using cred_ind'; try (left; exact Logic.I). cbn [fits enormous].
  destruct (N.lt_ge_cases (total_shares subs) (2 ^ 64)) as [L|L]; [|right; left; change (2 ^ 64) with 18446744073709551616 in L; change (2 ^ 40) with 1099511627776; lia].
  assert (K : fold_right and True (map (fun p => fits (snd p)) subs) \/ fold_right or False (map (fun p => enormous (snd p)) subs)).
  { clear L. induction IH as [|[k c] subs [H|H] HF IHs]; cbn [map fold_right snd] in *; [left; exact Logic.I| |right; left; exact H].
    destruct IHs as [IHs|IHs]; [left; auto|right; right; exact IHs]. }
  destruct K; [left; auto|right; auto].
Qed.

Section Panics.
Variables (cs : cryptosys) (seed : bytes).
Let epk := fst (cs_keypair cs seed).
Let esk := snd (cs_keypair cs seed).

Lemma split_panic key n t r : split_key_into_key_parts key n t r = Panic -> two64 <= lenN key * n.
Proof.
  intros H. destruct (N.lt_ge_cases (lenN key * n) two64) as [L|L]; [|exact L]. exfalso. revert H. unfold split_key_into_key_parts, assert.
  destruct (negb (t =? 0)); cbn [ensure bind]; [|discriminate]. destruct (t <=? n); cbn [ensure bind]; [|discriminate].
  destruct (_ <? MAX_HEADER_LEN); cbn [ensure bind]; [|discriminate]. destruct (N.ltb_spec (lenN key * n) two64); [|lia]. cbn [bind].
  destruct (t =? 1); [discriminate|]. destruct (t =? n).
  - destruct (xor_split_spec (N.to_nat n - 1) key r) as (r' & -> & _). discriminate.
  - pose proof (proj1 (create_errors key n t r)). destruct (create_secret_shares key n t r); cbn; congruence.
Qed.
Lemma split_size key n t r parts r' : lenN key < 2 ^ 24 -> split_key_into_key_parts key n t r = Ok (parts, r') -> lenN key * n < 2 ^ 24.
Proof.
  intros Hk H. pose proof (split_ok_parts _ _ _ _ _ _ H) as (_ & _ & E255). unfold split_key_into_key_parts, assert in H.
  destruct (negb (t =? 0)); cbn [ensure bind] in H; [|discriminate]. destruct (t <=? n); cbn [ensure bind] in H; [|discriminate].
  destruct (N.ltb_spec (wrap64 (lenN key * n)) MAX_HEADER_LEN) as [M|]; cbn [ensure bind] in H; [|discriminate].
  assert (lenN key * n < two64).
  { destruct (N.eqb_spec t 1) as [T1|T1].
    - destruct (N.ltb_spec (lenN key * n) two64); [auto|discriminate].
    - destruct (N.eqb_spec t n) as [T2|T2].
      + destruct (N.ltb_spec (lenN key * n) two64); [auto|discriminate].
      + specialize (E255 T1 T2). change (2 ^ 24) with 16777216 in Hk. unfold two64. nia. }
  rewrite wrap64_small in M by assumption. exact M.
Qed.

Lemma subs_panic L (subs : list (N * cred)) :
  Forall (fun p => forall kp idx r, lenN kp < 2 ^ 24 -> encrypt_key_data cs epk esk (snd p) kp idx r = Panic -> enormous (snd p)) subs ->
  forall parts idx r,
    Forall (fun b => length b = L) parts -> total_shares subs <= lenN parts -> lenN parts * N.of_nat L < 2 ^ 24 ->
    smap (sub_enc cs seed) subs (parts, (idx, r)) = Panic -> exists p, In p subs /\ enormous (snd p).
Proof.
  induction 1 as [|[k c] subs Hc HF IH]; intros parts idx r HL HT HB E; [discriminate E|].
  cbn [total_shares fold_right fst] in HT. change (fold_right (fun p n => fst p + n) 0 subs) with (total_shares subs) in HT.
  assert (exists mine rest, parts = mine ++ rest /\ lenN mine = k /\ @split_at err bytes k parts = Ok (mine, rest)) as (mine & rest & -> & HK & HS).
  { exists (firstn (N.to_nat k) parts), (skipn (N.to_nat k) parts). rewrite firstn_skipn. split; auto. split.
    - unfold lenN in *. rewrite firstn_length. lia.
    - unfold split_at. destruct (N.leb_spec k (lenN parts)); [reflexivity|lia]. }
  apply Forall_app in HL as [L1 L2]. rewrite lenN_app in HT, HB.
  assert (CL : lenN (concat mine) = k * N.of_nat L).
  { unfold lenN in *. rewrite (HeaderCryptoProofs.concat_length L _ L1). lia. }
  change (smap (sub_enc cs seed) ((k, c) :: subs) (mine ++ rest, (idx, r)))
    with (let* (b, s) := sub_enc cs seed (k, c) (mine ++ rest, (idx, r)) in let* (bs, s) := smap (sub_enc cs seed) subs s in Ok (b :: bs, s)) in E.
  apply bind_panic_out in E as [E|([b s1] & E1 & E)].
  - unfold sub_enc in E. rewrite HS in E. cbn [bind] in E. apply bind_panic_out in E as [E|([kd [i2 r2]] & _ & E)]; [|discriminate E].
    exists (k, c). split; [left; reflexivity|]. eapply Hc; [|exact E]. rewrite CL. nia.
  - unfold sub_enc in E1. rewrite HS in E1. cbn [bind] in E1. apply bind_ok in E1 as ([kd [i2 r2]] & He & E1). injection E1 as <- <-.
    apply bind_panic_out in E as [E|([bs s2] & _ & E)]; [|discriminate E].
    destruct (IH rest i2 r2 L2) as (p & I & P); [lia|nia|exact E|]. exists p. split; [right; exact I|exact P].
Qed.

Lemma all_panic c : wf_cred c -> forall kp idx r, lenN kp < 2 ^ 24 -> encrypt_key_data cs epk esk c kp idx r = Panic -> enormous c.
Proof.
  induction c as [p|k|k|k|subs n t IH] using cred_ind'; intros HW kp idx r HB H.
  - discriminate H.
  - discriminate H.
  - cbn [encrypt_key_data] in H. destruct (box_encrypt_easy _ _ _ _ _); discriminate H.
  - inversion HW.
  - inversion HW as [| | |? ? ? W1 W2 W3 W4]; subst.
    assert (IH' : Forall (fun p => forall kp idx r, lenN kp < 2 ^ 24 -> encrypt_key_data cs epk esk (snd p) kp idx r = Panic -> enormous (snd p)) subs).
    { rewrite Forall_forall in *. intros p Hin. apply IH; auto. }
    unfold epk, esk in H. rewrite encrypt_complex in H. cbn [enormous]. apply bind_panic_out in H as [H|([parts r1] & Hsp & H)].
    + left. apply split_panic in H. change (2 ^ 24) with 16777216 in HB. change (2 ^ 40) with 1099511627776. unfold two64 in H. nia.
    + right. apply bind_panic_out in H as [H|([x [y [z u]]] & _ & H)]; [|discriminate H].
      pose proof (split_ok_parts _ _ _ _ _ _ Hsp) as ((_ & _ & X) & Y & _). pose proof (split_size _ _ _ _ _ _ HB Hsp) as Sz.
      destruct (subs_panic (length kp) subs IH' parts idx r1 Y) as (p & I & P); [lia|rewrite X; fold (lenN kp); lia|exact H|]. exact (fold_or (fun p => enormous (snd p)) _ _ I P).
Qed.
End Panics.

Lemma encrypt_header_panic lib opts er : random_ok er -> wf_cred (expression opts) -> encrypt_header lib opts er = Panic -> enormous (expression opts).
Proof.
  intros [R1 R2] W H.
  assert (CK : check_chunk_size (chosen_chunk_size er) = Ok tt).
  { apply check_chunk_size_iff. destruct (chosen_bounds er R1). split; auto. lia. }
  unfold encrypt_header in H. rewrite from_proto_opts in H. destruct (lib (alg_of (eo_fast opts))) as [cs|]; cbn [bind] in H; [|discriminate H].
  rewrite CK in H. cbn [bind] in H. pose proof (all_panic cs (er_seed er) (expression opts) W (er_payload_key er) 0 (er_shares er)) as A.
  destruct (cs_keypair cs (er_seed er)) as [epk esk] eqn:EK. cbn [fst snd] in A. fold (expression opts) in H.
  apply bind_panic_out in H as [H|([kd st] & _ & H)]; [|discriminate H]. apply A; [|exact H]. unfold lenN. rewrite R2. reflexivity.
Qed.

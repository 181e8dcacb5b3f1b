(** Proofs about the size of encrypted files (C81). *)
From Coq.Strings Require Import Byte String.
From Coq Require Import List NArith ZArith Bool Lia PeanoNat.
From Verif Require Import Base BaseFacts ShamirSpec Shamir ShamirProofs Errors Io HeaderIo HeaderIoSpec HeaderIoProofs Crypto Proto ProtoSpec ProtoProofs HeaderCrypto
  SplitProofs CredSpec HeaderCryptoProofs HeaderCryptoProofs2 HeaderCryptoProofs3 StreamCrypto Pipeline PipelineProofs PipelineSpec StreamSpec
  ChunkProofs FileCrypto AuthSpec FileSpec StreamProofs StreamProofs2 StreamProofs3 FileProofs Text Util CliErrors KeyFiles Ui Paths Getopts Cli Fs Commands FsSpec SizeSpec.
Import ListNotations.
Local Open Scope N_scope.

(** ** Numbers *)

Lemma digits_small n : n < 128 -> digits n = 1.
Proof.
  intros H. unfold digits. assert (N.size n <= 7).
  { destruct (N.eq_dec n 0) as [->|Hn]; [cbn; lia|]. rewrite N.size_log2 by exact Hn.
    assert (N.log2 n < 7) by (apply N.log2_lt_pow2; [lia|exact H]). lia. }
  assert ((N.size n + 6) / 7 < 2) by (apply N.div_lt_upper_bound; lia). lia.
Qed.

Lemma digits_step n : 128 <= n -> digits n = 1 + digits (n / 128).
Proof.
  intros H. assert (Hs : N.size n = N.size (n / 128) + 7).
  { assert (1 <= n / 128) by (apply N.div_le_lower_bound; lia).
    rewrite !N.size_log2 by lia. change 128 with (2 ^ 7). rewrite <- N.shiftr_div_pow2, N.log2_shiftr.
    assert (7 <= N.log2 n) by (apply N.log2_le_pow2; [lia|exact H]). lia. }
  assert (1 <= N.size (n / 128)).
  { assert (1 <= n / 128) by (apply N.div_le_lower_bound; lia). rewrite N.size_log2 by lia. lia. }
  unfold digits. rewrite Hs. replace (N.size (n / 128) + 7 + 6) with (N.size (n / 128) + 6 + 1 * 7) by lia.
  rewrite N.div_add by discriminate. assert (1 <= (N.size (n / 128) + 6) / 7) by (apply N.div_le_lower_bound; lia). lia.
Qed.

Lemma varint_go_length f : forall n, n < 128 ^ N.of_nat f -> (1 <= f)%nat -> lenN (varint_go f n) = digits n.
Proof.
  induction f as [|f IH]; intros n Hn Hf; [lia|]. cbn [varint_go]. destruct (N.ltb_spec n 128) as [L|L].
  - now rewrite digits_small.
  - rewrite digits_step by exact L. unfold lenN. cbn [length]. destruct f as [|f].
    + change (128 ^ N.of_nat 1) with 128 in Hn. lia.
    + fold (lenN (varint_go (S f) (n / 128))). assert (E : lenN (varint_go (S f) (n / 128)) = digits (n / 128)).
      { apply IH; [|lia]. apply N.div_lt_upper_bound; [discriminate|]. rewrite <- N.pow_succ_r'. rewrite <- Nat2N.inj_succ. exact Hn. }
      unfold lenN in E. rewrite <- E. lia.
Qed.

Lemma varint_length n : n < two64 -> lenN (varint n) = digits n.
Proof. intros H. apply varint_go_length; [|lia]. eapply N.lt_trans; [exact H|reflexivity]. Qed.

Lemma enc_len_size tag body : tag < 16 -> lenN body < two64 -> lenN (enc_len tag body) = field (lenN body).
Proof.
  intros Ht Hb. unfold lenN at 1. rewrite enc_len_length. unfold field. rewrite <- varint_length by exact Hb.
  assert (E : length (enc_key tag 2) = 1%nat).
  { unfold enc_key, varint. cbn [varint_go]. destruct (N.ltb_spec (tag * 8 + 2) 128); [reflexivity|lia]. }
  rewrite E. unfold lenN. lia.
Qed.

Lemma field_ge n : n <= field n.
Proof. unfold field. lia. Qed.

Lemma enc_len_small tag body : lenN (enc_len tag body) < two64 -> lenN body < two64.
Proof. unfold lenN. rewrite enc_len_length. lia. Qed.

Lemma count_size k : k < two64 -> lenN (enc_uint64 1 (one_to_zero k)) = count k.
Proof.
  intros H. unfold count, one_to_zero, enc_uint64. destruct (N.eqb_spec k 1) as [->|N1]; [reflexivity|].
  destruct (N.eqb_spec k 0) as [->|N0]; [reflexivity|]. destruct (N.leb_spec k 1); [lia|].
  rewrite lenN_app, varint_length by exact H. reflexivity.
Qed.

(** ** Trees *)

Definition part_size (L : N) (m : N * cred) : N := let '(shares, c) := m in field (count shares + key_size c (shares * L)).
Definition sum : list N -> N := fold_right N.add 0.

Lemma key_size_complex subs n t L :
  key_size (Complex subs n t) L = field (count t + sum (map (part_size L) subs)).
Proof. reflexivity. Qed.

Definition enc_part (p : N * kdata) : bytes := enc_len 2 (enc_kparts p).

Lemma enc_kdata_comp t parts : enc_kdata (KComp t parts) = enc_len 3 (enc_uint64 1 t ++ concat (map enc_part parts)).
Proof.
  cbn [enc_kdata]. f_equal. f_equal. f_equal. apply map_ext. intros [n d]. reflexivity.
Qed.

Section Tree.
Variables (cs : cryptosys) (seed : bytes).
Hypothesis ok : crypto_ok cs.

Definition sized (c : cred) : Prop := forall kp idx r kd st,
  wf_cred c -> encrypt_key_data cs (fst (cs_keypair cs seed)) (snd (cs_keypair cs seed)) c kp idx r = Ok (kd, st) ->
  (lenN (enc_kdata kd) < two64 \/ key_size c (lenN kp) < two64) ->
  lenN (enc_kdata kd) = key_size c (lenN kp).

Lemma leaf_sized c : (forall s n t, c <> Complex s n t) -> sized c.
Proof.
  intros HN kp idx r kd st _ E HB. apply leaf_shape in E as (ct & -> & X); auto.
  assert (HK : key_size c (lenN kp) = field (lenN ct)).
  { assert (lenN ct = lenN kp + 16) by (unfold lenN; lia). destruct c; cbn [key_size]; try congruence. exfalso. eapply HN. reflexivity. }
  rewrite HK in *. cbn [enc_kdata] in *. apply enc_len_size; [reflexivity|].
  destruct HB as [HB|HB]; [eapply enc_len_small; exact HB|]. eapply N.le_lt_trans; [apply field_ge|exact HB].
Qed.

Lemma subs_sized (L : nat) (subs : list (N * cred)) :
  Forall (fun p => sized (snd p)) subs -> Forall (fun p => wf_cred (snd p)) subs -> Forall (fun p => fst p < two64) subs ->
  forall parts s ek st,
    Forall (fun b => length b = L) parts ->
    smap (sub_enc cs seed) subs (parts, s) = Ok (ek, st) ->
    (lenN (concat (map enc_part ek)) < two64 \/ sum (map (part_size (N.of_nat L)) subs) < two64) ->
    lenN (concat (map enc_part ek)) = sum (map (part_size (N.of_nat L)) subs).
Proof.
  induction 1 as [|[k c] subs Hc HF IH]; intros HW HK parts [i r] ek st HL E HB.
  - injection E as <- <-. reflexivity.
  - inversion HW as [|? ? W1 W2]; subst. inversion HK as [|? ? K1 K2]; subst. cbn [fst snd] in *.
    apply smap_cons in E as (b & [p1 s1] & bs & s2 & E1 & E2 & E3). injection E3 as -> ->.
    apply bind_ok in E1 as ([mine rest] & Hs & E1). apply bind_ok in E1 as ([kd [i1 r1]] & He & E1). injection E1 as <- <- <-.
    apply split_at_ok in Hs as (-> & K). apply Forall_app in HL as [L1 L2].
    assert (HM : lenN (concat mine) = k * N.of_nat L).
    { unfold lenN at 1. rewrite (HeaderCryptoProofs.concat_length L _ L1). unfold lenN in K. lia. }
    cbn [map concat sum fold_right] in *. fold (sum (map (part_size (N.of_nat L)) subs)) in *. rewrite lenN_app in *.
    rewrite (IH W2 K2 rest _ _ _ L2 E2) by lia. f_equal.
    assert (HB1 : lenN (enc_part (one_to_zero k, kd)) < two64 \/ part_size (N.of_nat L) (k, c) < two64) by lia.
    unfold enc_part, part_size in *. rewrite <- HM in *.
    assert (HS : lenN (enc_kparts (one_to_zero k, kd)) = count k + key_size c (lenN (concat mine))).
    { unfold enc_kparts. cbn [fst snd]. rewrite lenN_app, count_size by exact K1. f_equal.
      eapply Hc; [exact W1|exact He|]. destruct HB1 as [HB1|HB1]; [left|right].
      - apply enc_len_small in HB1. unfold enc_kparts in HB1. cbn [fst snd] in HB1. rewrite lenN_app in HB1. lia.
      - unfold field in HB1. lia. }
    rewrite <- HS in *. apply enc_len_size; [reflexivity|].
    destruct HB1 as [HB1|HB1]; [eapply enc_len_small; exact HB1|]. unfold field in HB1. lia.
Qed.

Lemma all_sized c : sized c.
Proof.
  induction c as [p|k|k|k|subs n t IH] using cred_ind'; try (apply leaf_sized; discriminate).
  intros kp idx r kd st HW E HB.
  inversion HW as [| | |? ? ? W1 W2 W3 W4]; subst. change (2 ^ 64) with two64 in W4.
  rewrite encrypt_complex in E.
  apply bind_ok in E as ([parts r1] & Hsp & E). apply bind_ok in E as ([ek [p2 [i2 r2]]] & Hm & E). injection E as <- <-.
  destruct (split_ok_parts _ _ _ _ _ _ Hsp) as ((A & B & _) & HP & _).
  rewrite key_size_complex in *. rewrite enc_kdata_comp in *.
  assert (HS : lenN (enc_uint64 1 (one_to_zero t) ++ concat (map enc_part ek)) = count t + sum (map (part_size (lenN kp)) subs)).
  { rewrite lenN_app, count_size by lia. f_equal. unfold lenN at 2.
    eapply subs_sized; [exact IH|exact W2| |exact HP|exact Hm|].
    - rewrite Forall_forall. intros [k c] Hin. cbn [fst]. apply total_ge in Hin. lia.
    - destruct HB as [HB|HB]; [left|right].
      + apply enc_len_small in HB. rewrite lenN_app in HB. lia.
      + unfold field in HB. unfold lenN in HB. lia. }
  rewrite <- HS in *. apply enc_len_size; [reflexivity|].
  destruct HB as [HB|HB]; [eapply enc_len_small; exact HB|]. unfold field in HB. lia.
Qed.
End Tree.

Lemma header_sized lib opts er ser cod chunk : lib_ok lib -> random_ok er -> wf_cred (expression opts) ->
  encrypt_header lib opts er = Ok (ser, cod, chunk) ->
  (lenN ser < two64 \/ header_size (expression opts) < two64) -> lenN ser = header_size (expression opts).
Proof.
  intros Hl [Hr1 Hr2] HW H HB.
  destruct (encrypt_header_inv _ _ _ _ _ _ H) as (cs & t & l & st & Hcs & _ & He & Hs & _).
  assert (ok : crypto_ok cs) by (eapply cryptosys_ok; eauto).
  pose proof (protected_length cs er ok Hr1) as HP.
  pose proof (keypair_pk_len _ ok (er_seed er)) as HK. unfold PUBLIC_KEY_LEN in HK.
  set (pk := fst (cs_keypair cs (er_seed er))) in *. set (ct := aead_encrypt_easy cs _ _ _) in Hs.
  assert (HC : length ct = 61%nat).
  { unfold ct. rewrite aead_easy_length by exact ok. rewrite HP. reflexivity. }
  clearbody ct.
  assert (E1 : lenN (enc_bytes 6 pk) = field 32).
  { destruct pk as [|b pk']; [discriminate|]. unfold enc_bytes. rewrite enc_len_size; [unfold lenN; now rewrite HK|reflexivity|].
    unfold lenN. rewrite HK. reflexivity. }
  assert (E2 : lenN (enc_bytes 8 ct) = field 61).
  { destruct ct as [|b ct']; [discriminate|]. unfold enc_bytes. rewrite enc_len_size; [unfold lenN; now rewrite HC|reflexivity|].
    unfold lenN. rewrite HC. reflexivity. }
  assert (E3 : lenN (match cryptofamily_from_opts (eo_fast opts) with None => [] | Some alg => enc_len 1 (enc_enum 1 alg) end) = 4).
  { unfold cryptofamily_from_opts. destruct (eo_fast opts); reflexivity. }
  assert (E4 : lenN (enc_len 7 (enc_ckey (t, l))) = lenN (enc_kdata (KComp t l))).
  { rewrite enc_kdata_comp. unfold lenN. rewrite !enc_len_length. reflexivity. }
  assert (EK : lenN (er_payload_key er) = 32) by (unfold lenN; rewrite Hr2; reflexivity).
  assert (ES : lenN ser = 4 + field 32 + lenN (enc_kdata (KComp t l)) + field 61).
  { rewrite Hs. unfold encode_header. cbn [hd_family hd_ephemeral_pk hd_payload_key hd_protected].
    rewrite !lenN_app, E1, E2, E3, E4. lia. }
  unfold header_size in *. rewrite ES in *. f_equal. f_equal. rewrite <- EK in *.
  eapply all_sized; [exact ok|exact HW|exact He|]. rewrite EK. revert HB. rewrite EK. generalize (field 32), (field 61). lia.
Qed.

(** ** Files *)

Lemma aligned_spec n : n + padding_len n 8 = aligned n.
Proof.
  pose proof (padding_lt n) as H. pose proof (padding_aligned n) as A. unfold aligned.
  apply N.mod_divides in A as (q & A); [|discriminate].
  assert ((n + 7) / 8 = q); [|lia].
  symmetry. apply N.div_unique with (r := 7 - padding_len n 8); lia.
Qed.

Lemma conversion_sized lib subs n t fast b c : lib_ok lib -> wf_cred (Complex subs n t) ->
  is_conversion lib (DoEncrypt (Complex subs n t) fast) b c ->
  exists chunk, 1044480 <= chunk <= 1052664 /\ chunk mod 8 = 0 /\
    lenN c = 8 + aligned (header_size (Complex subs n t)) + lenN b + 16 * N.max 1 ((lenN b + chunk - 1) / chunk).
Proof.
  intros Hl HW (er & src & room & fl & snk & Hr & Ee & Fb & C & Ec). cbn [conversion] in C.
  set (opts := mkEncryptOptions subs n t fast) in C.
  destruct (encrypt_header lib opts er) as [[[ser cod] chunk]| |] eqn:Henc; [|unfold encrypt_stream in C; rewrite Henc in C; destruct C; discriminate..].
  destruct (encrypt_stream_ok lib opts er ser cod chunk Hl Hr Henc _ _ _ C) as (HL & HO & _).
  cbn [w_out app] in HO. subst c. rewrite HO, lenN_app, frame_of_length.
  assert (Hs : lenN ser = header_size (Complex subs n t)).
  { apply (header_sized lib opts er ser cod chunk Hl Hr HW Henc). left. eapply N.le_lt_trans; [exact HL|reflexivity]. }
  rewrite Hs, <- aligned_spec.
  pose proof (cod_parts lib opts er ser cod chunk Hl Henc) as (Hok & He & _).
  assert (HB : 1044480 <= chunk <= 1052664 /\ chunk mod 8 = 0).
  { destruct (encrypt_header_inv _ _ _ _ _ _ Henc) as (? & ? & ? & ? & _ & _ & _ & _ & _ & ->).
    destruct Hr as [Hr _]. exact (chosen_bounds er Hr). }
  exists chunk. destruct HB as [HB HB8]. split; [exact HB|]. split; [exact HB8|].
  pose proof (c_pos lib opts er ser cod chunk Hr Henc) as Hc.
  pose proof (c_64 lib opts er ser cod chunk Hr Henc) as Hc64.
  unfold lenN at 1. rewrite enc_size, chunks_count by assumption. rewrite Fb. clear - HB.
  rewrite Nat2N.inj_add, Nat2N.inj_mul, Nat2N.inj_max, Nat2N.inj_div, Nat2N.inj_sub, Nat2N.inj_add, N2Nat.id.
  fold (lenN b). change (N.of_nat 16) with 16. change (N.of_nat 1) with 1. lia.
Qed.

(** ** Flat groups *)

Lemma flat_sum (cs : list cred) : (forall c, In c cs -> forall s n t, c <> Complex s n t) ->
  sum (map (part_size 32) (map (fun c => (1, c)) cs)) = 52 * lenN cs.
Proof.
  induction cs as [|c cs IH]; intros H; [reflexivity|]. cbn [map sum fold_right]. fold (sum (map (part_size 32) (map (fun c => (1, c)) cs))).
  rewrite IH by (intros c' I; apply H; now right).
  replace (part_size 32 (1, c)) with 52; [unfold lenN; cbn [length]; lia|].
  specialize (H c (or_introl eq_refl)). destruct c; try reflexivity. exfalso. eapply H. reflexivity.
Qed.

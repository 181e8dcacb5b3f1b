(** Consequences for whole headers, in the form used by PropHeader.v. *)
From Coq Require Import List NArith Bool Lia PeanoNat.
From Coq.Strings Require Import Byte.
From Verif Require Import Base BaseFacts ShamirSpec Shamir ShamirProofs Errors HeaderIo Crypto Proto ProtoSpec ProtoProofs HeaderCrypto
  SplitProofs CredSpec HeaderCryptoProofs HeaderCryptoProofs2 HeaderCryptoProofs3.
Import ListNotations.
Local Open Scope N_scope.

(** ** Satisfaction is monotone *)

Lemma selection_incl {A} (l k : list A) : selection l k -> incl l k.
Proof.
  induction 1; intros x Hx; auto.
  - destruct Hx as [->|Hx]; [now left|right; auto].
  - right. auto.
Qed.

Lemma sat_mono cs D D' c : incl D D' -> sat cs D c -> sat cs D' c.
Proof.
  intros HI. induction c as [p|k|k|k|subs n t IH] using cred_ind'; intros H;
    inversion H as [? d Hin M|? ? ? sel HS HF HT]; subst; try (eapply sat_leaf; eauto; fail).
  apply (sat_group cs D' subs n t sel); auto.
  rewrite Forall_forall in *. intros p Hp. apply IH; auto. now apply (selection_incl _ _ HS).
Qed.

Lemma no_accident_incl cs epk D D' recs cts : incl D D' -> no_accident cs epk D' recs cts -> no_accident cs epk D recs cts.
Proof. intros HI H i c ct d A B C. apply (H i c ct d A B); auto. Qed.

(** ** Header length is a function of the redacted header *)

Lemma blank_length a b : blank a = blank b -> length a = length b.
Proof. intros H. apply (f_equal (@length byte)) in H. unfold blank in H. now rewrite !repeat_length in H. Qed.

Lemma enc_bytes_length tag a b : length a = length b -> length (enc_bytes tag a) = length (enc_bytes tag b).
Proof.
  destruct a, b; try discriminate; auto. intros H. unfold enc_bytes. rewrite !enc_len_length.
  unfold lenN. rewrite H. reflexivity.
Qed.

Lemma redact_length h h' : redact h = redact h' -> length (encode_header h) = length (encode_header h').
Proof.
  destruct h as [f e k p], h' as [f' e' k' p']. unfold redact, encode_header. cbn [hd_family hd_ephemeral_pk hd_payload_key hd_protected]. intros H.
  injection H as -> He Hk Hp. apply blank_length in He, Hp.
  rewrite !app_length, (enc_bytes_length 6 e e'), (enc_bytes_length 8 p p') by auto.
  f_equal. f_equal. f_equal.
  destruct k as [[t l]|], k' as [[t' l']|]; cbn in Hk; try discriminate; auto.
  injection Hk as <- Hk.
  pose proof (redact_keys_length_enc (KComp t l) (KComp t l')) as X. cbn [redact_keys] in X. rewrite Hk in X. specialize (X eq_refl).
  rewrite !enc_ckey_kcomp in X.
  assert (L : length (enc_ckey (t, l)) = length (enc_ckey (t, l'))).
  { rewrite !enc_len_length in X. unfold lenN in X.
    assert (M : forall a b, (a <= b)%nat -> (length (varint (N.of_nat a)) <= length (varint (N.of_nat b)))%nat).
    { intros a b Hab. unfold varint. assert (G : forall fuel m n, m <= n -> (length (varint_go fuel m) <= length (varint_go fuel n))%nat).
      { induction fuel as [|fuel IHf]; intros m n Hmn; simpl; auto.
        destruct (N.ltb_spec m 128), (N.ltb_spec n 128); simpl; try lia.
        apply le_n_S, IHf, N.div_le_mono; lia. }
      apply G. lia. }
    destruct (Nat.le_ge_cases (length (enc_ckey (t, l))) (length (enc_ckey (t, l')))) as [LE|LE]; pose proof (M _ _ LE); lia. }
  rewrite !enc_len_length. unfold lenN. rewrite L. reflexivity.
Qed.

Lemma header_shape lib lib' opts opts' er er' ser cod c ser' cod' c' :
  lib_ok lib -> lib_ok lib' -> random_ok er -> random_ok er' ->
  wf_cred (expression opts) -> wf_cred (expression opts') ->
  same_shape (expression opts) (expression opts') -> eo_fast opts = eo_fast opts' ->
  encrypt_header lib opts er = Ok (ser, cod, c) -> encrypt_header lib' opts' er' = Ok (ser', cod', c') ->
  exists h h', ser = encode_header h /\ ser' = encode_header h' /\ header_u64 h /\ header_u64 h' /\ redact h = redact h' /\
    length (hd_protected h) = 61%nat.
Proof.
  intros Hl Hl' [R1 R2] [R1' R2'] W W' HS HF E E'.
  destruct (encrypt_header_inv _ _ _ _ _ _ E) as (cs & t & l & st & Hcs & _ & He & Hs & _).
  destruct (encrypt_header_inv _ _ _ _ _ _ E') as (cs' & t' & l' & st' & Hcs' & _ & He' & Hs' & _).
  pose proof (cryptosys_ok _ _ _ Hl Hcs) as ok. pose proof (cryptosys_ok _ _ _ Hl' Hcs') as ok'.
  eexists _, _. split; [exact Hs|]. split; [exact Hs'|].
  assert (U : forall o e (x : cryptosys) t l st p, wf_cred (expression o) ->
    encrypt_key_data x (fst (cs_keypair x (er_seed e))) (snd (cs_keypair x (er_seed e))) (expression o) (er_payload_key e) 0 (er_shares e) = Ok (KComp t l, st) ->
    header_u64 (mkHeader (cryptofamily_from_opts (eo_fast o)) (fst (cs_keypair x (er_seed e))) (Some (t, l)) p)).
  { intros o e x t0 l0 st0 p Hw Hx. split; simpl.
    - destruct (eo_fast o); unfold two32; lia.
    - apply (proj1 (kdata_u64_comp t0 l0)). eapply encrypted_u64; [exact Hw|exact Hx]. }
  split; [eapply U; eauto|]. split; [eapply U; eauto|]. split.
  - assert (HKL : length (er_payload_key er) = length (er_payload_key er')) by congruence.
    pose proof (tree_shape cs cs' (er_seed er) (er_seed er') ok ok' _ _ HS _ _ _ _ _ _ _ _ _ _ HKL He He') as T.
    cbn [redact_keys] in T. injection T as -> T. unfold redact. cbn [hd_family hd_ephemeral_pk hd_payload_key hd_protected option_map fst snd].
    rewrite T, HF. f_equal.
    + apply blank_eq. now rewrite (keypair_pk_len _ ok), (keypair_pk_len _ ok').
    + apply blank_eq. rewrite (aead_easy_length _ ok), (aead_easy_length _ ok'), (protected_length _ _ ok), (protected_length _ _ ok') by auto. reflexivity.
  - cbn [hd_protected]. rewrite (aead_easy_length _ ok), (protected_length _ _ ok) by auto. reflexivity.
Qed.

Lemma same_shape_refl c : same_shape c c.
Proof.
  induction c using cred_ind'; try (apply shape_leaf; intros; discriminate).
  apply shape_group. induction H; constructor; auto.
Qed.

(** ** Acceptance *)

Definition alg_of (fast : bool) : alg := if fast then AES256GCM else ChaCha20Poly1305Ietf.

Lemma from_proto_opts lib fast :
  cryptosys_from_proto lib (cryptofamily_from_opts fast) =
  match lib (alg_of fast) with Some cs => Ok cs | None => Err EHardwareUnsupported end.
Proof. destruct fast; reflexivity. Qed.

Lemma encrypt_header_accepts lib opts er :
  random_ok er -> wf_cred (expression opts) ->
  ((exists x, encrypt_header lib opts er = Ok x) <->
   exists cs, lib (alg_of (eo_fast opts)) = Some cs /\
              realisable cs (snd (cs_keypair cs (er_seed er))) 32 (expression opts)).
Proof.
  intros [R1 R2] W.
  assert (CK : check_chunk_size (chosen_chunk_size er) = Ok tt).
  { apply check_chunk_size_iff. destruct (chosen_bounds er R1). split; auto. lia. }
  assert (LK : lenN (er_payload_key er) = 32) by (unfold lenN; now rewrite R2).
  unfold encrypt_header. rewrite from_proto_opts.
  destruct (lib (alg_of (eo_fast opts))) as [cs|]; cbn [bind].
  2:{ split; [intros (x & E); discriminate|intros (x & E & _); discriminate]. }
  rewrite CK. cbn [bind].
  pose proof (all_accept cs (er_seed er) (expression opts) W (er_payload_key er) 0 (er_shares er)) as A.
  rewrite LK in A. specialize (A ltac:(unfold two32; lia)).
  destruct (cs_keypair cs (er_seed er)) as [epk esk] eqn:EK. cbn [fst snd] in A. fold (expression opts).
  split.
  - intros (x & E). apply bind_ok in E as (y & E & _). exists cs. rewrite EK. split; auto. apply A. eauto.
  - intros (cs' & E & HR). injection E as <-. rewrite EK in HR. apply A in HR as ([kd st] & ->). cbn [bind]. eauto.
Qed.

(** ** Decryption refuses bad chunk sizes *)

Lemma decrypt_header_chunk lib ser D cod c : decrypt_header lib ser D = Ok (cod, c) -> c <= 1073741824 /\ c mod 8 = 0.
Proof.
  intros H. unfold decrypt_header in H.
  do 5 apply bind_ok in H as (? & ? & H). apply bind_ok in H as ([k i] & _ & H).
  do 6 apply bind_ok in H as (? & ? & H). injection H as <- <-. apply check_chunk_size_iff.
  match goal with E : check_chunk_size _ = Ok ?u |- _ => destruct u; exact E end.
Qed.

(** ** Panics *)

Definition flat_creds (D : list cred) : Prop :=
  Forall (fun d => match d with PublicKey _ | Complex _ _ _ => False | _ => True end) D.

Lemma flat_decryptors cs epk D : flat_creds D -> exists ds, map_out (decryptor_from_credential cs epk) D = Ok ds.
Proof.
  induction 1 as [|d D Hd HD IH]; simpl; [eauto|]. destruct IH as (ds & ->).
  destruct d; simpl in *; try contradiction; cbn [bind]; eauto.
Qed.

Lemma decrypt_header_panic lib ser D : flat_creds D -> decrypt_header lib ser D = Panic ->
  exists h t l cs ds, decode_header ser = Some h /\ hd_payload_key h = Some (t, l) /\
    cryptosys_from_proto lib (hd_family h) = Ok cs /\
    map_out (decryptor_from_credential cs (hd_ephemeral_pk h)) D = Ok ds /\
    decrypt_key_data ds (KComp t l) 0 = Panic.
Proof.
  intros HF H. unfold decrypt_header in H.
  destruct (decode_header ser) as [h|]; cbn [bind] in H; [|discriminate].
  destruct (cryptosys_from_proto lib (hd_family h)) as [cs| |] eqn:Hcs; cbn [bind] in H; [|discriminate|].
  2:{ unfold cryptosys_from_proto in Hcs. destruct (hd_family h) as [a|]; [|discriminate].
      destruct (a =? 1); [|destruct (a =? 2); [|discriminate]]; cbn [bind] in Hcs; destruct (lib _); discriminate. }
  destruct (Nat.eqb _ _); cbn [ensure bind] in H; [|discriminate].
  destruct (flat_decryptors cs (hd_ephemeral_pk h) D HF) as (ds & Hds). rewrite Hds in H. cbn [bind] in H.
  destruct (hd_payload_key h) as [[t l]|] eqn:Hk; cbn [bind fst snd] in H; [|discriminate].
  exists h, t, l, cs, ds. repeat split; auto.
  destruct (decrypt_key_data ds (KComp t l) 0) as [[[k|] i]| |]; cbn [bind] in H; try discriminate; auto.
  destruct (Nat.eqb _ _); cbn [ensure bind] in H; [|discriminate].
  destruct (aead_decrypt_easy _ _ _ _); cbn [bind] in H; [|discriminate].
  destruct (decode_protected _) as [p|]; cbn [bind] in H; [|discriminate].
  unfold check_chunk_size in H. destruct (_ <=? _); cbn [ensure bind] in H; [|discriminate].
  destruct (_ =? 0); cbn [ensure bind] in H; [|discriminate].
  destruct (_ =? 1); cbn [bind] in H; [|discriminate].
  destruct (bytes_eqb _ _); cbn [ensure bind] in H; discriminate.
Qed.

(** *** Crafted headers *)

Lemma varint_length_max n : (length (varint n) <= 10)%nat.
Proof.
  unfold varint. generalize 10%nat as f. intros f. revert n. induction f as [|f IH]; intros n; simpl; auto.
  destruct (n <? 128); simpl; [lia|]. specialize (IH (n / 128)). lia.
Qed.

Lemma enc_len_max tag b : (length (enc_len tag b) <= length b + 20)%nat.
Proof.
  rewrite enc_len_length. pose proof (varint_length_max (lenN b)). pose proof (varint_length_max (tag * 8 + 2)).
  unfold enc_key. lia.
Qed.

Lemma enc_bytes_max tag b : (length (enc_bytes tag b) <= length b + 20)%nat.
Proof. destruct b; [simpl; lia|]. apply enc_len_max. Qed.

Lemma enc_uint64_max tag v : (length (enc_uint64 tag v) <= 20)%nat.
Proof.
  unfold enc_uint64. destruct (v =? 0); [simpl; lia|]. rewrite app_length. unfold enc_key.
  pose proof (varint_length_max v). pose proof (varint_length_max (tag * 8 + 0)). lia.
Qed.

Section Crafted.
Variables (lib : crypto_lib) (cs : cryptosys) (seed rseed : bytes).
Hypothesis Hlib : lib ChaCha20Poly1305Ietf = Some cs.
Hypothesis ok : crypto_ok cs.
Let epk := fst (cs_keypair cs seed).
Let esk := snd (cs_keypair cs seed).
Let rpk := fst (cs_keypair cs rseed).
Let rsk := snd (cs_keypair cs rseed).

Lemma crafted_box m i : exists ct,
  box_encrypt_easy cs m rpk esk (recipient_box_nonce i) = Some ct /\ length ct = (length m + 16)%nat /\
  forall f, decryptor_from_credential cs epk (PrivateKey rsk) = Ok f -> f ct i = Ok (Some m).
Proof.
  destruct (agree _ ok seed rseed) as (k & A & B).
  destruct (box_encrypt_easy cs m rpk esk (recipient_box_nonce i)) as [ct|] eqn:E.
  - exists ct. split; auto. split; [eapply box_easy_length; eauto|].
    intros f Hf. eapply (leaf_opened cs ok seed (PublicKey rpk)); [exact E| |exact Hf].
    exists rseed. unfold rpk, rsk. now destruct (cs_keypair cs rseed).
  - unfold box_encrypt_easy in E. unfold rpk, esk in E. rewrite B in E. destruct (cs_box_seal _ _ _ _); discriminate.
Qed.

Definition crafted_header (t : N) (l : list (N * kdata)) : bytes := encode_header (mkHeader (Some 1) epk (Some (t, l)) []).

Lemma crafted_decode t l : t < two64 -> Forall (fun p => fst p < two64 /\ kdata_u64 (snd p)) l ->
  (length (enc_ckey (t, l)) <= 1000)%nat ->
  decode_header (crafted_header t l) = Some (mkHeader (Some 1) epk (Some (t, l)) []).
Proof.
  intros Ht Hl HL. apply header_round_trip.
  - split; simpl; [unfold two32; lia|]. auto.
  - unfold encode_header, lenN. cbn [hd_family hd_ephemeral_pk hd_payload_key hd_protected]. rewrite !app_length.
    pose proof (enc_len_max 7 (enc_ckey (t, l))). pose proof (enc_bytes_max 6 epk).
    assert (length (enc_len 1 (enc_enum 1 1)) = 4%nat) by reflexivity. assert (length (enc_bytes 8 []) = 0%nat) by reflexivity.
    unfold epk in *. rewrite (keypair_pk_len _ ok) in *. unfold PUBLIC_KEY_LEN in *. unfold two64. lia.
Qed.

Lemma crafted_decrypt t l : t < two64 -> Forall (fun p => fst p < two64 /\ kdata_u64 (snd p)) l ->
  (length (enc_ckey (t, l)) <= 1000)%nat -> exists f,
  decryptor_from_credential cs epk (PrivateKey rsk) = Ok f /\
  (decrypt_key_data [f] (KComp t l) 0 = Panic -> decrypt_header lib (crafted_header t l) [PrivateKey rsk] = Panic).
Proof.
  intros Ht Hl HL. eexists. split; [reflexivity|]. intros HP.
  unfold decrypt_header. rewrite crafted_decode by auto. cbn [bind hd_family hd_ephemeral_pk hd_payload_key hd_protected fst snd].
  cbn [cryptosys_from_proto N.eqb Pos.eqb bind]. rewrite Hlib. cbn [bind].
  unfold epk at 1. rewrite (keypair_pk_len _ ok). cbn [PUBLIC_KEY_LEN Nat.eqb ensure bind].
  cbn [map_out decryptor_from_credential bind]. cbn [decryptor_from_credential] in HP. rewrite HP. reflexivity.
Qed.

(** A two-share member with an empty key. *)
Lemma crafted_empty : exists ser, decrypt_header lib ser [PrivateKey rsk] = Panic.
Proof.
  destruct (crafted_box [] 0) as (ct & E & HL & HO).
  destruct (crafted_decrypt 0 [(2, KEnc ct)]) as (f & Hf & HP).
  - reflexivity.
  - repeat constructor.
  - unfold enc_ckey. cbn [fst snd map concat]. rewrite !app_length. pose proof (enc_uint64_max 1 0).
    pose proof (enc_len_max 2 (enc_kparts (2, KEnc ct))). unfold enc_kparts in *. rewrite app_length in *. cbn [fst snd enc_kdata] in *.
    pose proof (enc_uint64_max 1 2). pose proof (enc_len_max 2 ct). rewrite HL in *. simpl length in *. lia.
  - eexists. apply HP. rewrite decrypt_comp.
    assert (S : smap (sub_dec [f]) [(2, KEnc ct)] (0, 0) = Panic).
    { cbn [smap sub_dec decrypt_key_data try_decryptors]. rewrite (HO f Hf). reflexivity. }
    rewrite S. reflexivity.
Qed.

(** An AND group whose parts have different lengths. *)
Lemma crafted_lengths : exists ser, decrypt_header lib ser [PrivateKey rsk] = Panic.
Proof.
  destruct (crafted_box [x00] 0) as (ct & E & HL & HO). destruct (crafted_box [] 1) as (ct' & E' & HL' & HO').
  destruct (crafted_decrypt 2 [(0, KEnc ct); (0, KEnc ct')]) as (f & Hf & HP).
  - reflexivity.
  - repeat constructor.
  - unfold enc_ckey. cbn [fst snd map concat]. rewrite !app_length. pose proof (enc_uint64_max 1 2).
    pose proof (enc_len_max 2 (enc_kparts (0, KEnc ct))). pose proof (enc_len_max 2 (enc_kparts (0, KEnc ct'))).
    unfold enc_kparts in *. rewrite app_length in *. cbn [fst snd enc_kdata] in *.
    pose proof (enc_uint64_max 1 0). pose proof (enc_len_max 2 ct). pose proof (enc_len_max 2 ct'). rewrite HL, HL' in *. simpl length in *. lia.
  - eexists. apply HP. rewrite decrypt_comp.
    assert (S : smap (sub_dec [f]) [(0, KEnc ct); (0, KEnc ct')] (0, 0) = Ok ([[(0, [x00])]; [(1, [])]], (2, 2))).
    { cbn [smap sub_dec decrypt_key_data try_decryptors]. rewrite (HO f Hf). cbn [bind].
      change (N.max 0 1) with 1. change (distribute_key_data (Some [x00]) 1 0) with (@Ok err _ [(0, [x00])]).
      change (wrap32 (0 + 1)) with 1. change (wrap64 (0 + 1)) with 1. cbn [bind]. rewrite (HO' f Hf). reflexivity. }
    rewrite S. reflexivity.
Qed.
End Crafted.

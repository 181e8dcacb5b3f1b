(** Proofs about whole headers: round trip, insufficiency, shape, sizes. *)
From Coq Require Import List NArith Bool Lia PeanoNat.
From Coq.Strings Require Import Byte.
From Verif Require Import Base BaseFacts Shamir Errors HeaderIo Crypto Proto ProtoSpec ProtoProofs HeaderCrypto SplitProofs
  CredSpec HeaderCryptoProofs.
Import ListNotations.
Local Open Scope N_scope.

(** ** Numbers in the key tree are 64-bit *)

Lemma one_to_zero_le n : one_to_zero n <= n.
Proof. unfold one_to_zero. destruct (N.eqb_spec n 1); lia. Qed.

Lemma smap_forall {A B S E} (f : A -> S -> outcome E (B * S)) (P : A -> Prop) (Q : B -> Prop) l :
  Forall (fun a => P a -> forall s b s', f a s = Ok (b, s') -> Q b) l -> Forall P l ->
  forall s bs s', smap f l s = Ok (bs, s') -> Forall Q bs.
Proof.
  induction 1 as [|a l Ha HF IH]; intros HP s bs s' H.
  - injection H as <- <-. constructor.
  - inversion HP as [|? ? P1 P2]; subst. apply smap_cons in H as (b & s1 & bs' & s2 & E1 & E2 & E3).
    injection E3 as -> ->. constructor; eauto.
Qed.

Lemma total_ge l k c : In (k, c) l -> k <= total_shares l.
Proof.
  induction l as [|[k' c'] l IH]; simpl; [tauto|]. intros [E|H].
  - injection E as <- <-. lia.
  - specialize (IH H). lia.
Qed.

Lemma encrypted_u64 cs epk esk c : wf_cred c -> forall kp idx r kd st,
  encrypt_key_data cs epk esk c kp idx r = Ok (kd, st) -> kdata_u64 kd.
Proof.
  induction c as [p|k|k|k|subs n t IH] using cred_ind'; intros HW kp idx r kd st H.
  - cbn in H. injection H as <- <-. exact I.
  - cbn in H. injection H as <- <-. exact I.
  - cbn [encrypt_key_data] in H. destruct (box_encrypt_easy _ _ _ _ _); [|discriminate]. injection H as <- <-. exact I.
  - discriminate.
  - inversion HW as [| | |? ? ? W1 W2 W3 W4]; subst.
    cbn [encrypt_key_data] in H. apply bind_ok in H as ([parts r1] & Hsp & H).
    pose proof (split_ok_parts _ _ _ _ _ _ Hsp) as ((A & B & _) & _).
    apply bind_ok in H as ([ekps [parts' [idx2 r2]]] & Hm & H). injection H as <- <-.
    change (2 ^ 64) with two64 in W4.
    apply kdata_u64_comp. split; [pose proof (one_to_zero_le t); lia|].
    eapply (smap_forall _ (fun p => In p subs /\ wf_cred (snd p)) (fun p => fst p < two64 /\ kdata_u64 (snd p))); [| |exact Hm].
    + eapply Forall_impl; [|exact IH]. intros [k c] HI (Hin & Hw) [ps [i rr]] b s' Hb. simpl in HI, Hw.
      apply bind_ok in Hb as ([mine rest] & Hs & Hb). apply bind_ok in Hb as ([kd' [i' rr']] & He & Hb).
      injection Hb as <- <-. simpl. split.
      * pose proof (one_to_zero_le k). apply total_ge in Hin. lia.
      * eapply HI; eauto.
    + rewrite Forall_forall in *. auto.
Qed.

(** ** Inversion of [encrypt_header] *)

Lemma encrypt_header_inv lib opts er ser cod chunk :
  encrypt_header lib opts er = Ok (ser, cod, chunk) ->
  let fam := cryptofamily_from_opts (eo_fast opts) in
  exists cs t l st,
    cryptosys_from_proto lib fam = Ok cs /\
    check_chunk_size (chosen_chunk_size er) = Ok tt /\
    encrypt_key_data cs (fst (cs_keypair cs (er_seed er))) (snd (cs_keypair cs (er_seed er))) (expression opts)
      (er_payload_key er) 0 (er_shares er) = Ok (KComp t l, st) /\
    ser = encode_header (mkHeader fam (fst (cs_keypair cs (er_seed er))) (Some (t, l))
            (aead_encrypt_easy cs (encode_protected (mkProtected 1 (fst (cs_keypair cs (er_seed er))) (chosen_chunk_size er)))
               (er_payload_key er) ENCRYPTED_HEADER_NONCE)) /\
    cod = mkCodec cs (er_payload_key er) (cs_hash cs ser) true /\ chunk = chosen_chunk_size er.
Proof.
  intros H fam. unfold encrypt_header in H. apply bind_ok in H as (cs & Hcs & H).
  apply bind_ok in H as ([] & Hck & H).
  destruct (cs_keypair cs (er_seed er)) as [epk esk] eqn:EK.
  apply bind_ok in H as ([kd st] & He & H). injection H as Hser Hcod Hchunk.
  pose proof He as He'. fold (expression opts) in He.
  apply bind_ok in He' as ([p1 p2] & _ & He'). apply bind_ok in He' as ([e1 [e2 [e3 e4]]] & _ & He').
  injection He' as E1 E2. subst kd. rewrite Hser in Hcod.
  exists cs, (one_to_zero (eo_threshold opts)), e1, st. rewrite EK. simpl. repeat split; auto.
Qed.

Lemma cryptosys_ok lib fam cs : lib_ok lib -> cryptosys_from_proto lib fam = Ok cs -> crypto_ok cs.
Proof.
  intros HL. unfold cryptosys_from_proto. destruct fam as [a|]; [|discriminate].
  destruct (a =? 1); [|destruct (a =? 2); [|discriminate]]; cbn [bind];
    destruct (lib _) eqn:E; intros H; try discriminate; injection H as <-; eapply HL; eauto.
Qed.

Lemma chosen_bounds er : er_chunk er < 1024 ->
  1048576 - 4096 <= chosen_chunk_size er <= 1048576 + 4088 /\ chosen_chunk_size er mod 8 = 0.
Proof.
  intros H. unfold chosen_chunk_size, DEFAULT_CHUNK_SIZE, DEFAULT_CHUNK_SIZE_UNCERTAINTY, FILE_ALIGNMENT. split; [lia|].
  replace (1048576 - 4096 + er_chunk er * 8) with ((130560 + er_chunk er) * 8) by lia.
  apply N.mod_mul. discriminate.
Qed.

Lemma check_chunk_size_iff c : check_chunk_size c = Ok tt <-> c <= 1073741824 /\ c mod 8 = 0.
Proof.
  unfold check_chunk_size, MAX_CHUNK_SIZE, FILE_ALIGNMENT.
  destruct (N.leb_spec c 1073741824); cbn [ensure bind].
  - destruct (N.eqb_spec (c mod 8) 0); cbn [ensure]; split; intros; try discriminate; tauto.
  - split; [discriminate|]. intros [H' _]. exfalso. apply (N.lt_irrefl c). eapply N.le_lt_trans; eauto.
Qed.

Lemma protected_length cs er : crypto_ok cs -> er_chunk er < 1024 ->
  length (encode_protected (mkProtected 1 (fst (cs_keypair cs (er_seed er))) (chosen_chunk_size er))) = 45%nat.
Proof.
  intros ok H. destruct (chosen_bounds er H) as (B & _).
  pose proof (keypair_pk_len _ ok (er_seed er)) as HL. unfold PUBLIC_KEY_LEN in HL.
  unfold encode_protected. cbn [ph_auth_type ph_sender_pk ph_chunk_size].
  rewrite !app_length.
  assert (E1 : length (enc_enum 1 1) = 2%nat) by reflexivity. rewrite E1.
  assert (E2 : length (enc_bytes 2 (fst (cs_keypair cs (er_seed er)))) = 34%nat).
  { destruct (fst (cs_keypair cs (er_seed er))) as [|b l] eqn:E; [discriminate|].
    unfold enc_bytes, enc_len. unfold lenN. rewrite !app_length, HL. reflexivity. }
  rewrite E2. unfold enc_fixed64. destruct (N.eqb_spec (chosen_chunk_size er) 0); [lia|].
  rewrite app_length, le_bytes_length. reflexivity.
Qed.

(** ** Round trip of the header *)

Section RoundTrip.
Variables (lib : crypto_lib) (opts : encrypt_options) (er : enc_random) (ser : bytes) (cod : codec) (chunk : N) (D : list cred).
Hypothesis Hlib : lib_ok lib.
Hypothesis Hr : random_ok er.
Hypothesis Hwf : wf_cred (expression opts).
Hypothesis Henc : encrypt_header lib opts er = Ok (ser, cod, chunk).
Hypothesis Hlen : lenN ser < 2 ^ 64.
Hypothesis HD : Forall (decryption_cred (co_cs cod)) D.
Hypothesis Hacc : no_accident (co_cs cod) (fst (cs_keypair (co_cs cod) (er_seed er))) D (leaves (expression opts)) (header_keys ser).

Lemma codec_ok : crypto_ok (co_cs cod).
Proof.
  destruct (encrypt_header_inv _ _ _ _ _ _ Henc) as (cs & t & l & st & Hcs & _ & _ & _ & -> & _).
  simpl. eapply cryptosys_ok; eauto.
Qed.

Lemma decryptors_exist cs epk : Forall (decryption_cred cs) D ->
  exists ds, map_out (decryptor_from_credential cs epk) D = Ok ds.
Proof.
  clear HD Hacc. induction 1 as [|d D' Hd HD IH]; simpl; [eauto|].
  destruct IH as (ds & ->). destruct d; simpl in *; try contradiction; cbn [bind]; eauto.
Qed.

Lemma decode_encrypted cs t l st ct :
  encrypt_key_data cs (fst (cs_keypair cs (er_seed er))) (snd (cs_keypair cs (er_seed er))) (expression opts)
      (er_payload_key er) 0 (er_shares er) = Ok (KComp t l, st) ->
  let h := mkHeader (cryptofamily_from_opts (eo_fast opts)) (fst (cs_keypair cs (er_seed er))) (Some (t, l)) ct in
  lenN (encode_header h) < 2 ^ 64 ->
  decode_header (encode_header h) = Some h.
Proof.
  intros He h HL. apply header_round_trip; auto.
  split; simpl.
  - destruct (eo_fast opts); unfold two32; lia.
  - apply (proj1 (kdata_u64_comp t l)). eapply encrypted_u64; [exact Hwf|exact He].
Qed.

Lemma header_round :
  (decrypt_header lib ser D = Ok (for_decryption cod, chunk) /\ sat (co_cs cod) D (expression opts)) \/
  (decrypt_header lib ser D = Err EInsufficientCredentials /\ ~ sat (co_cs cod) D (expression opts)).
Proof.
  destruct (encrypt_header_inv _ _ _ _ _ _ Henc) as (cs & t & l & st & Hcs & Hck & He & Hs & Hc & ->).
  assert (ok : crypto_ok cs) by (eapply cryptosys_ok; eauto).
  set (ct := aead_encrypt_easy cs _ _ _) in Hs.
  assert (Hdec : decode_header ser = Some (mkHeader (cryptofamily_from_opts (eo_fast opts)) (fst (cs_keypair cs (er_seed er))) (Some (t, l)) ct)).
  { rewrite Hs. apply (decode_encrypted cs t l st ct He). rewrite <- Hs. exact Hlen. }
  assert (Ecs : co_cs cod = cs) by now rewrite Hc. rewrite Ecs in *.
  destruct (decryptors_exist cs (fst (cs_keypair cs (er_seed er))) HD) as (ds & Hds).
  assert (HU : Forall (usable cs (er_seed er)) D).
  { eapply Forall_impl; [|exact HD]. intros d. now apply decryption_cred_usable. }
  destruct Hr as [Hr1 Hr2]. destruct st as [idx' r'].
  destruct (all_trees_ok cs ok (er_seed er) D ds HU Hds (expression opts) (er_payload_key er) 0 (er_shares er) (KComp t l) idx' r')
    as (_ & _ & T); auto.
  { rewrite Hr2. lia. }
  { reflexivity. }
  unfold header_keys in Hacc. rewrite Hdec in Hacc.
  destruct T as (res & Hres & Hsat).
  { intros i c c' d A B C E. apply (Hacc i c c' d A B C).
    destruct E as (f & m & F1 & F2). exists f, m. split; [exact F1|]. rewrite <- F2.
    rewrite N.add_0_l.
    destruct d; simpl in F1; try discriminate; injection F1 as <-; rewrite ?secret_nonce_wrap, ?box_nonce_wrap; reflexivity. }
  unfold decrypt_header. rewrite Hdec. cbn [bind hd_family hd_ephemeral_pk hd_payload_key hd_protected fst snd]. rewrite Hcs. cbn [bind].
  rewrite (keypair_pk_len _ ok). cbn [PUBLIC_KEY_LEN Nat.eqb ensure bind]. rewrite Hds. cbn [bind].
  rewrite Hres. cbn [bind].
  destruct Hsat as [(-> & S)|(-> & S)]; cbn [bind]; [left|right]; split; auto.
  rewrite Hr2. cbn [AEAD_KEY_LEN Nat.eqb ensure bind].
  unfold ct. rewrite aead_easy_inv by exact ok. cbn [bind].
  destruct (chosen_bounds er Hr1) as (B & _).
  rewrite protected_round_trip; cbn [ph_auth_type ph_sender_pk ph_chunk_size].
  - cbn [bind ph_auth_type ph_sender_pk ph_chunk_size]. rewrite Hck. cbn [bind N.eqb Pos.eqb].
    rewrite bytes_eqb_refl. cbn [ensure bind]. rewrite Hc. reflexivity.
  - unfold two32. lia.
  - unfold two64. lia.
  - unfold lenN. rewrite (keypair_pk_len _ ok). reflexivity.
Qed.
End RoundTrip.

(** ** Shape *)

Lemma redact_keys_length_enc d d' :
  redact_keys d = redact_keys d' -> length (enc_kdata d) = length (enc_kdata d').
Proof.
  assert (EB : forall a b, blank a = blank b -> length a = length b).
  { intros a b H. apply (f_equal (@length byte)) in H. unfold blank in H. now rewrite !repeat_length in H. }
  revert d'. induction d as [|ct|t l IH] using kdata_rect'; intros d' H; destruct d' as [|ct'|t' l']; try discriminate; auto.
  - injection H as H. apply EB in H. cbn [enc_kdata]. rewrite !enc_len_length. unfold lenN. now rewrite H.
  - injection H as <- H. rewrite !enc_ckey_kcomp, !enc_len_length.
    assert (E : length (enc_ckey (t, l)) = length (enc_ckey (t, l'))).
    { unfold enc_ckey. rewrite !app_length. f_equal. cbn [fst snd].
      revert l' H. induction IH as [|[k d] l Hd HF IHl]; intros [|[k' d'] l'] H; try discriminate; auto.
      simpl in H. injection H as <- H1 H2. cbn [map concat]. rewrite !app_length. rewrite (IHl _ H2). f_equal.
      unfold enc_kparts. cbn [fst snd] in *. rewrite !enc_len_length. unfold lenN. rewrite !app_length, (Hd _ H1). reflexivity. }
    unfold lenN. rewrite E. reflexivity.
Qed.

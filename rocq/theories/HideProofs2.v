(** Confidentiality of headers and files in the world of [HideSpec]. *)
From Coq.Strings Require Import Byte String.
From Coq Require Import List NArith Bool Lia Arith.
From Verif Require Import Base BaseFacts Shamir Errors Io HeaderIo HeaderIoSpec HeaderIoProofs Crypto Proto ProtoSpec ProtoProofs
  HeaderCrypto SplitProofs CredSpec HeaderCryptoProofs HeaderCryptoProofs2 HeaderCryptoProofs4 StreamCrypto Pipeline PipelineSpec StreamSpec ChunkProofs
  FileCrypto FileSpec StreamProofs FileProofs HideSpec HideProofs.
Import ListNotations.

Lemma blind_lib_of hidden lib fam cs' : cryptosys_from_proto (blind_lib hidden lib) fam = Ok cs' ->
  exists cs, cryptosys_from_proto lib fam = Ok cs /\ cs' = blind hidden cs.
Proof.
  unfold cryptosys_from_proto, blind_lib. destruct fam as [a|]; [|discriminate].
  destruct (a =? 1)%N; [|destruct (a =? 2)%N; [|discriminate]]; cbn [bind];
    (destruct (lib _) as [cs|]; [|discriminate]); cbn [option_map]; intros H; injection H as <-; eauto.
Qed.

Lemma sat_blind hidden cs D c : sat (blind hidden cs) D c -> sat cs D c.
Proof.
  induction c as [p|k|k|k|subs n t IH] using cred_ind'; intros H; inversion H as [c0 d A B|s n0 t0 sel A B C]; subst; try (eapply sat_leaf; eassumption).
  eapply sat_group; eauto. rewrite Forall_forall in *. intros p Hp. apply IH; auto. now apply (selection_incl _ _ A).
Qed.

Section Hidden.
Variables (hidden : bytes -> bool) (cs : cryptosys) (seed : bytes).
Notation epk := (fst (cs_keypair cs seed)).
Notation esk := (snd (cs_keypair cs seed)).

Lemma aead_hidden m m' k n : hidden k = true -> length m = length m' ->
  aead_encrypt_easy (blind hidden cs) m k n = aead_encrypt_easy (blind hidden cs) m' k n.
Proof. intros H L. unfold aead_encrypt_easy. cbn [cs_aead_encrypt blind]. now rewrite H, L. Qed.

Lemma leaf_opaque c : (forall k, key_of_recipient cs epk esk c = Some k -> hidden k = true) ->
  (forall subs n t, c <> Complex subs n t) -> opaque (blind hidden cs) seed c.
Proof.
  intros Hk Hc len d Ld. exists []. intros kp idx r kd idx' ro r' Lk H _.
  assert (L : length kp = length (bx kp d)) by (rewrite (bx_length kp d len); auto).
  cbn [cs_keypair blind] in *. destruct c as [p|k|k|k|subs n t]; cbn [encrypt_key_data recipient_secret_key bind] in *.
  - injection H as <- <- <-. split; [reflexivity|]. eexists. split; [|reflexivity].
    rewrite (aead_hidden (bx kp d) kp); [reflexivity| |auto]. apply Hk. reflexivity.
  - injection H as <- <- <-. split; [reflexivity|]. eexists. split; [|reflexivity].
    rewrite (aead_hidden (bx kp d) kp); [reflexivity| |auto]. apply Hk. reflexivity.
  - unfold box_encrypt_easy in *. cbn [cs_beforenm cs_box_seal blind] in *. cbn [key_of_recipient] in Hk.
    destruct (cs_beforenm cs k esk) as [key|]; [|discriminate]. rewrite (Hk key eq_refl) in *. rewrite <- L.
    destruct (cs_box_seal _ _ _ _). injection H as <- <- <-. split; [reflexivity|]. eexists. split; reflexivity.
  - discriminate.
  - now destruct (Hc subs n t).
Qed.
End Hidden.

Lemma leaves_leaf c l : In l (leaves c) -> forall subs n t, l <> Complex subs n t.
Proof.
  induction c as [p|k|k|k|subs n t IH] using cred_ind'; intros H; try (destruct H as [<-|[]]; discriminate).
  cbn [leaves] in H. apply in_concat in H as (x & Hx & Hl). apply in_map_iff in Hx as (p & <- & Hp).
  rewrite Forall_forall in IH. eapply IH; eauto.
Qed.

Lemma enc_len_same tag a b : length a = length b -> length (enc_len tag a) = length (enc_len tag b).
Proof. intros H. unfold enc_len. rewrite !app_length. unfold lenN. now rewrite H. Qed.
Lemma enc_bytes_same tag a b : length a = length b -> length (enc_bytes tag a) = length (enc_bytes tag b).
Proof. intros H. destruct a, b; try discriminate; [reflexivity|]. unfold enc_bytes. now apply enc_len_same. Qed.

Lemma blind_aead_length hidden cs m k n : crypto_ok cs -> length (aead_encrypt_easy (blind hidden cs) m k n) = length m + 16.
Proof.
  intros ok. unfold aead_encrypt_easy. cbn [cs_aead_encrypt blind].
  destruct (cs_aead_encrypt cs _ [] k n) as [ct t] eqn:E.
  pose proof (aead_len _ ok (if hidden k then repeat x00 (length m) else m) [] k n) as A.
  pose proof (aead_mac_len _ ok (if hidden k then repeat x00 (length m) else m) [] k n) as B.
  rewrite E in A, B. cbn [fst snd] in A, B. rewrite app_length, A, B. destruct (hidden k); [now rewrite repeat_length|reflexivity].
Qed.

(** ** Headers *)

Lemma header_hiding lib hidden opts seed key key' D :
  lib_ok lib -> wf_cred (expression opts) -> length key = 32 -> length key' = 32 ->
  (forall cs, lib (chosen opts) = Some cs -> ~ sat cs D (expression opts)) ->
  (forall cs c, lib (chosen opts) = Some cs -> In c (leaves (expression opts)) ->
     (exists d, In d D /\ matches cs c d) \/
     (forall k, key_of_recipient cs (fst (cs_keypair cs seed)) (snd (cs_keypair cs seed)) c = Some k -> hidden k = true)) ->
  exists mask, forall chunk r r' ser cod n,
    (forall i, r' i = bxor (r i) (nth i mask x00)) ->
    encrypt_header (blind_lib hidden lib) opts (mkRandom chunk key seed r) = Ok (ser, cod, n) -> (lenN ser < 2 ^ 64)%N ->
    exists ser' cod' h ct,
      encrypt_header (blind_lib hidden lib) opts (mkRandom chunk key' seed r') = Ok (ser', cod', n) /\
      decode_header ser = Some h /\
      decode_header ser' = Some (mkHeader (hd_family h) (hd_ephemeral_pk h) (hd_payload_key h) ct).
Proof.
  intros Hlib Hwf Lk Lk' Hsat Hleaf.
  destruct (cryptosys_from_proto lib (cryptofamily_from_opts (eo_fast opts))) as [cs|e|] eqn:Ecs.
  2,3: exists []; intros chunk r r' ser cod n _ H _; exfalso;
    destruct (encrypt_header_inv _ _ _ _ _ _ H) as (cs' & t & l & st & Hcs & _); apply blind_lib_of in Hcs as (cs & X & _); congruence.
  pose proof (chosen_lib _ _ _ Ecs) as Hch.
  assert (ok : crypto_ok cs) by (eapply Hlib; eauto).
  assert (HO : opaque (blind hidden cs) seed (expression opts)).
  { destruct (tree_opaque (blind hidden cs) seed D (expression opts) Hwf) as [X|X]; [|apply sat_blind in X; now destruct (Hsat cs Hch)|exact X].
    intros l Hl. destruct (Hleaf cs l Hch Hl) as [(d & Hd & Hm)|Hk]; [left; exists d; auto|right].
    apply leaf_opaque; [exact Hk|exact (leaves_leaf _ _ Hl)]. }
  destruct (HO 32 (bx key key')) as (mask & HM); [now apply bx_length|].
  exists mask. intros chunk r r' ser cod n Hr H HL.
  destruct (encrypt_header_inv _ _ _ _ _ _ H) as (cs' & t & l & st & Hcs & Hck & He & Hs & Hc & ->).
  apply blind_lib_of in Hcs as (cs1 & X & ->). rewrite Ecs in X. injection X as <-. cbn [er_payload_key er_seed er_shares] in *.
  destruct st as [idx ro].
  destruct (HM _ _ _ _ _ _ r' Lk He) as (_ & ro' & He' & _); [intros i _; apply Hr|].
  assert (Ekey : bx key (bx key key') = key').
  { apply bx_cancel. congruence. }
  rewrite Ekey in He'.
  set (epk := fst (cs_keypair (blind hidden cs) seed)) in *. set (esk := snd (cs_keypair (blind hidden cs) seed)) in *.
  set (chunk_size := chosen_chunk_size (mkRandom chunk key seed r)) in *.
  set (pt := encode_protected (mkProtected 1 epk chunk_size)) in *.
  set (ct := aead_encrypt_easy (blind hidden cs) pt key ENCRYPTED_HEADER_NONCE) in *.
  set (ct' := aead_encrypt_easy (blind hidden cs) pt key' ENCRYPTED_HEADER_NONCE) in *.
  set (h := mkHeader (cryptofamily_from_opts (eo_fast opts)) epk (Some (t, l)) ct) in *.
  set (h' := mkHeader (cryptofamily_from_opts (eo_fast opts)) epk (Some (t, l)) ct').
  assert (LE : length (encode_header h') = length (encode_header h)).
  { unfold encode_header. cbn [hd_family hd_ephemeral_pk hd_payload_key hd_protected h h']. rewrite !app_length.
    rewrite (enc_bytes_same 8 ct' ct); [reflexivity|]. unfold ct, ct'. now rewrite !blind_aead_length. }
  exists (encode_header h'), (mkCodec (blind hidden cs) key' (cs_hash cs (encode_header h')) true), h, ct'.
  assert (U : header_u64 h).
  { split; cbn [hd_family hd_payload_key h].
    - unfold h. cbn. destruct (eo_fast opts); reflexivity.
    - apply (proj1 (kdata_u64_comp t l)). eapply encrypted_u64; [exact Hwf|exact He]. }
  split; [|split].
  - unfold encrypt_header. cbn [er_chunk er_payload_key er_seed er_shares].
    assert (Eb : cryptosys_from_proto (blind_lib hidden lib) (cryptofamily_from_opts (eo_fast opts)) = Ok (blind hidden cs)).
    { revert Ecs. unfold cryptosys_from_proto, blind_lib. clear. destruct (eo_fast opts); cbn; (destruct (lib _); [|discriminate]);
        cbn; intros E; injection E as <-; reflexivity. }
    rewrite Eb. cbn [bind]. change (chosen_chunk_size (mkRandom chunk key' seed r')) with chunk_size. rewrite Hck. cbn [bind].
    fold epk esk. destruct (cs_keypair (blind hidden cs) seed) as [a b] eqn:Ek. cbn [fst snd] in epk, esk.
    fold pt. subst epk esk. unfold expression in He'. rewrite He'. cbn [bind]. reflexivity.
  - rewrite Hs. apply header_round_trip; [exact U|]. rewrite <- Hs. exact HL.
  - apply (header_round_trip h'); [exact U|]. unfold lenN in *. rewrite LE, <- Hs. exact HL.
Qed.

(** ** Data *)

Lemma chunks_same n : 1 <= n -> forall d d', length d = length d' -> map (@length byte) (chunks n d) = map (@length byte) (chunks n d').
Proof.
  intros Hn d. pattern d, (chunks n d). apply chunks_ind; [exact Hn| |].
  - intros x Hx d' E. rewrite chunks_eq by exact Hn. rewrite <- E. apply Nat.leb_le in Hx. rewrite Hx. cbn. now rewrite E.
  - intros x Hx IH d' E. rewrite (chunks_eq n d') by exact Hn. rewrite <- E. apply Nat.leb_gt in Hx. rewrite Hx. cbn [map].
    f_equal; [now rewrite !firstn_length, E|]. apply IH. now rewrite !skipn_length, E.
Qed.

Definition sized : list (bytes * bool) -> list (nat * bool) := map (fun p => (length (fst p), snd p)).

Lemma flag_last_same : forall a b, map (@length byte) a = map (@length byte) b -> sized (flag_last a) = sized (flag_last b).
Proof.
  induction a as [|x a IH]; intros [|y b] H; try discriminate; [reflexivity|]. cbn [map] in H. injection H as H1 H2.
  destruct a as [|x2 a], b as [|y2 b]; try discriminate; [cbn; now rewrite H1|].
  specialize (IH _ H2). cbn [flag_last] in *. cbn [sized map fst snd]. rewrite H1. f_equal. exact IH.
Qed.

Lemma removelast_map {A B} (f : A -> B) l : removelast (map f l) = map f (removelast l).
Proof. induction l as [|a [|b l] IH]; [reflexivity|reflexivity|]. cbn [map removelast] in *. f_equal. exact IH. Qed.

Lemma input_same n s s' : 1 <= n -> length (flat s) = length (flat s') -> ends_in_error s = ends_in_error s' ->
  sized (input_chunks n s) = sized (input_chunks n s').
Proof.
  intros Hn HL HE. pose proof (chunks_same n Hn _ _ HL) as H. unfold input_chunks. rewrite HE.
  destruct (ends_in_error s'); [|now apply flag_last_same]. unfold sized. rewrite !map_map. cbn [fst snd].
  apply (f_equal (@removelast _)) in H. rewrite !removelast_map in H.
  apply (f_equal (map (fun k => (k, false)))) in H. now rewrite !map_map in H.
Qed.

Lemma convert_same conv : (forall b b' l i, length b = length b' -> conv b l i = conv b' l i) ->
  forall E E' k, sized E = sized E' -> convert_seq conv k E = convert_seq conv k E'.
Proof.
  intros Hc. induction E as [|[b l] E IH]; intros [|[b' l'] E'] k H; try discriminate; [reflexivity|].
  unfold sized in H. cbn [map fst snd] in H. injection H as H1 -> H2. cbn [convert_seq]. rewrite (Hc b b') by exact H1.
  now rewrite (IH E' (S k) H2).
Qed.

Lemma blind_encrypt_sized hidden cs key hh b l i b' : crypto_ok cs ->
  convert_chunk (mkCodec (blind hidden cs) key hh true) b l i = Ok b' -> length b' = length b + 16.
Proof.
  intros ok. unfold convert_chunk. cbn [co_encrypting co_cs co_key co_header_hash cs_aead_encrypt blind].
  set (m := if hidden key then repeat x00 (length b) else b). assert (Lm : length m = length b) by (unfold m; destruct (hidden key); [apply repeat_length|reflexivity]).
  set (ad := chunk_ad hh l). set (nn := chunk_nonce i).
  pose proof (aead_len _ ok m ad key nn) as A. pose proof (aead_mac_len _ ok m ad key nn) as B.
  destruct (cs_aead_encrypt cs m ad key nn) as [ct t]. cbn [fst snd] in A, B. intros H. injection H as <-. rewrite app_length, A, B, Lm. reflexivity.
Qed.

Lemma blind_pipe_ok hidden lib opts er ser cod chunk : lib_ok lib -> random_ok er ->
  encrypt_header (blind_lib hidden lib) opts er = Ok (ser, cod, chunk) -> pipe_ok (codec_pipe cod (N.to_nat chunk)).
Proof.
  intros Hlib Hr Henc.
  pose proof (c_pos _ opts er ser cod chunk Hr Henc) as Hc. pose proof (c_64 _ opts er ser cod chunk Hr Henc) as H64.
  destruct (encrypt_header_inv _ _ _ _ _ _ Henc) as (cs' & t & l & st & Hcs & _ & _ & _ & -> & _).
  apply blind_lib_of in Hcs as (cs & Hcs & ->). apply chosen_lib in Hcs. pose proof (Hlib _ _ Hcs) as ok.
  split; [|split].
  - unfold input_buffer_size. cbn. lia.
  - unfold buffer_capacity. cbn [p_chunk_size p_in_asize p_out_asize codec_pipe]. unfold input_asize, output_asize, AEAD_MAC_LEN. cbn. lia.
  - intros b la i b' _ E. cbn [p_conv codec_pipe] in E. apply blind_encrypt_sized in E; [|exact ok]. cbn. unfold AEAD_MAC_LEN. lia.
Qed.

Lemma file_hiding lib hidden opts er src1 src2 w r1 w1 r2 w2 :
  lib_ok lib -> random_ok er -> hidden (er_payload_key er) = true ->
  length (flat src1) = length (flat src2) -> ends_in_error src1 = ends_in_error src2 ->
  encrypt_stream (blind_lib hidden lib) opts er src1 w r1 w1 ->
  encrypt_stream (blind_lib hidden lib) opts er src2 w r2 w2 ->
  w_out w1 = w_out w2 /\ (r1 = Ok tt <-> r2 = Ok tt).
Proof.
  intros Hlib Hr Hh HL HE H1 H2. unfold encrypt_stream in *.
  destruct (encrypt_header (blind_lib hidden lib) opts er) as [[[ser cod] chunk]|e|] eqn:Henc;
    [|destruct H1 as [-> ->], H2 as [-> ->]; tauto|destruct H1 as [-> ->], H2 as [-> ->]; tauto].
  destruct (write_header w ser) as [[u|e|] w0];
    [|destruct H1 as [-> ->], H2 as [-> ->]; tauto|destruct H1 as [-> ->], H2 as [-> ->]; tauto].
  pose proof (blind_pipe_ok hidden lib opts er ser cod chunk Hlib Hr Henc) as P.
  destruct (encrypt_header_inv _ _ _ _ _ _ Henc) as (cs' & t & l & st & Hcs & _ & _ & _ & -> & _).
  apply blind_lib_of in Hcs as (cs & Hcs & ->). apply chosen_lib in Hcs. pose proof (Hlib _ _ Hcs) as ok.
  set (cod := mkCodec (blind hidden cs) (er_payload_key er) (cs_hash (blind hidden cs) ser) true) in *.
  set (c := N.to_nat chunk) in *.
  destruct (convert_stream_spec _ P _ _ _ _ H1) as (A1 & B1 & _ & _).
  destruct (convert_stream_spec _ P _ _ _ _ H2) as (A2 & B2 & _ & _).
  assert (S : convert_seq (p_conv (codec_pipe cod c)) 0 (input_chunks (input_buffer_size (codec_pipe cod c)) src1) =
              convert_seq (p_conv (codec_pipe cod c)) 0 (input_chunks (input_buffer_size (codec_pipe cod c)) src2)).
  { apply convert_same; [|apply input_same; [apply P|exact HL|exact HE]].
    intros b b' la i Lb. cbn [p_conv codec_pipe]. unfold convert_chunk. cbn [co_encrypting cod co_cs co_key co_header_hash cs_aead_encrypt blind].
    now rewrite Hh, Lb. }
  assert (S1 : seq_converted (p_conv (codec_pipe cod c)) (input_buffer_size (codec_pipe cod c)) src1 =
               seq_converted (p_conv (codec_pipe cod c)) (input_buffer_size (codec_pipe cod c)) src2) by (unfold seq_converted; now rewrite S).
  assert (S2 : seq_input_ok (p_conv (codec_pipe cod c)) (input_buffer_size (codec_pipe cod c)) src1 =
               seq_input_ok (p_conv (codec_pipe cod c)) (input_buffer_size (codec_pipe cod c)) src2) by (unfold seq_input_ok; now rewrite S, HE).
  rewrite A1, A2, B1, B2. unfold seq_success, seq_out. rewrite S1, S2. tauto.
Qed.

Lemma blind_runs hidden lib opts er src w : lib_ok lib -> random_ok er ->
  exists r w', encrypt_stream (blind_lib hidden lib) opts er src w r w'.
Proof.
  intros Hlib Hr. unfold encrypt_stream. destruct (encrypt_header (blind_lib hidden lib) opts er) as [[[ser cod] chunk]|e|] eqn:Henc; eauto.
  destruct (write_header w ser) as [[u|e|] w0]; eauto.
  apply convert_stream_exists. exact (blind_pipe_ok hidden lib opts er ser cod chunk Hlib Hr Henc).
Qed.

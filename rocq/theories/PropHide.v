(** C59-C62: confidentiality, keys in use, and accepted headers.

    Vocabulary (HideSpec): [blind_lib hidden lib] the crypto library with perfect secrecy under the keys in
    [hidden]; [key_of_recipient] the key a recipient's part of the header is encrypted under; [masked];
    [sealed_for].  See also CredSpec ([sat], [wf_cred]) and AuthSpec, FileSpec ([seal], [sealed_data]). *)
From Coq.Strings Require Import Byte String.
From Coq Require Import List NArith Bool Lia Arith.
From Verif Require Import Base BaseFacts Shamir Errors Io HeaderIo HeaderIoSpec HeaderIoProofs Crypto Proto HeaderCrypto CredSpec
  StreamCrypto Pipeline StreamSpec FileCrypto AuthSpec FileSpec FileProofs ToyCrypto PropHeader PropFile
  HideSpec HideProofs HideProofs2 HideProofs3.
Import ListNotations.

(** ** C59: insufficient credentials reveal nothing about the payload key *)

(** [D] are the credentials of someone who does not satisfy the expression; the keys of all recipients
    for which they hold no credential are unknown to them.  Then the recipients' part of the header
    looks the same for every payload key: whatever the randomness [r] was for [key], there is as likely
    randomness [r'] that yields the same bytes for [key'].  ([ct], encrypted under the payload key, is
    the subject of C60.) *)
Theorem C59_insufficient_credentials_reveal_nothing :
  forall lib cs hidden opts seed key key' D,
    lib_ok lib -> lib (chosen opts) = Some cs -> wf_cred (expression opts) -> length key = 32 -> length key' = 32 ->
    let '(epk, esk) := cs_keypair cs seed in
    ~ sat cs D (expression opts) ->
    (forall c, In c (leaves (expression opts)) ->
       (exists d, In d D /\ matches cs c d) \/ (forall k, key_of_recipient cs epk esk c = Some k -> hidden k = true)) ->
    exists mask, forall chunk r r' ser cod n,
      masked mask r r' ->
      encrypt_header (blind_lib hidden lib) opts (mkRandom chunk key seed r) = Ok (ser, cod, n) -> (lenN ser < 2 ^ 64)%N ->
      exists ser' cod' h ct,
        encrypt_header (blind_lib hidden lib) opts (mkRandom chunk key' seed r') = Ok (ser', cod', n) /\
        decode_header ser = Some h /\
        decode_header ser' = Some (mkHeader (hd_family h) (hd_ephemeral_pk h) (hd_payload_key h) ct).
Proof.
  intros lib cs hidden opts seed key key' D Hl Hcs Hw Lk Lk'. destruct (cs_keypair cs seed) as [epk esk] eqn:E. intros Hs Hh.
  apply (header_hiding lib hidden opts seed key key' D Hl Hw Lk Lk').
  - intros cs' H. replace cs' with cs by congruence. exact Hs.
  - intros cs' c H. replace cs' with cs by congruence. rewrite E. exact (Hh c).
Qed.
Print Assumptions C59_insufficient_credentials_reveal_nothing.

(** [ex_D'] holds two of the three shares needed for [ex_opts]; the two shares of the public key
    recipient are hidden. *)
Definition ex_box_key : option bytes := cs_beforenm toy_cs (toy_pk ex_seed) (snd (cs_keypair toy_cs (er_seed ex_random))).
Definition ex_hidden (k : bytes) : bool := match ex_box_key with Some b => bytes_eqb k b | None => false end.
Example C59_case : exists mask, forall r r' ser cod n,
  masked mask r r' ->
  encrypt_header (blind_lib ex_hidden toy_lib) ex_opts (mkRandom 5 (er_payload_key ex_random) (er_seed ex_random) r) = Ok (ser, cod, n) ->
  (lenN ser < 2 ^ 64)%N ->
  exists ser' cod' h ct,
    encrypt_header (blind_lib ex_hidden toy_lib) ex_opts (mkRandom 5 (repeat x55 32) (er_seed ex_random) r') = Ok (ser', cod', n) /\
    decode_header ser = Some h /\
    decode_header ser' = Some (mkHeader (hd_family h) (hd_ephemeral_pk h) (hd_payload_key h) ct).
Proof.
  destruct (C59_insufficient_credentials_reveal_nothing toy_lib toy_cs ex_hidden ex_opts (er_seed ex_random) (er_payload_key ex_random)
    (repeat x55 32) ex_D' toy_lib_ok eq_refl ex_wf eq_refl eq_refl ex_unsat) as (mask & H).
  - intros c Hc. change (leaves (expression ex_opts)) with [Password [x70; x77]; PublicKey (toy_pk ex_seed); SymmetricKey ex_key; Password [x71]] in Hc.
    destruct Hc as [<-|[<-|[<-|[<-|[]]]]].
    + left. exists (Password [x70; x77]). split; [cbn; tauto|reflexivity].
    + right. intros k Hk. change (ex_box_key = Some k) in Hk. unfold ex_hidden. rewrite Hk. apply bytes_eqb_refl.
    + left. exists (SymmetricKey ex_key). split; [cbn; tauto|reflexivity].
    + left. exists (Password [x71]). split; [cbn; tauto|reflexivity].
  - exists mask. intros r r' ser cod n. apply H.
Qed.
(** Such headers exist, and are not the same for all payload keys if the randomness stays the same. *)
Example C59_case_runs :
  let enc key := encrypt_header (blind_lib ex_hidden toy_lib) ex_opts (mkRandom 5 key (er_seed ex_random) (er_shares ex_random)) in
  match enc (er_payload_key ex_random), enc (repeat x55 32) with
  | Ok (ser, _, _), Ok (ser', _, _) =>
      (lenN ser <? 2 ^ 64)%N = true /\
      option_map hd_payload_key (decode_header ser) <> option_map hd_payload_key (decode_header ser')
  | _, _ => False
  end.
Proof. vm_compute. split; [reflexivity|discriminate]. Qed.

(** The condition on the credentials is needed: who holds the only recipient's password sees whether the
    payload key is [key] or [key']. *)
Definition one_password : encrypt_options := mkEncryptOptions [(1%N, Password [x70])] 1 1 false.
Theorem C59_needs_insufficient_credentials :
  exists key key', length key = 32 /\ length key' = 32 /\ sat toy_cs [Password [x70]] (expression one_password) /\
    forall r r' ser cod n ser' cod' n',
      encrypt_header toy_lib one_password (mkRandom 5 key [x05] r) = Ok (ser, cod, n) ->
      encrypt_header toy_lib one_password (mkRandom 5 key' [x05] r') = Ok (ser', cod', n') ->
      option_map hd_payload_key (decode_header ser) <> option_map hd_payload_key (decode_header ser').
Proof.
  exists (repeat x00 32), (repeat x01 32). split; [reflexivity|]. split; [reflexivity|]. split.
  - apply (sat_group _ _ _ _ _ [(1%N, Password [x70])]); [repeat constructor| |unfold total_shares; cbn; lia].
    repeat constructor. eapply sat_leaf; [now left|reflexivity].
  - intros r r' ser cod n ser' cod' n' H1 H2.
    assert (E1 : forall r, encrypt_header toy_lib one_password (mkRandom 5 (repeat x00 32) [x05] r) =
                 encrypt_header toy_lib one_password (mkRandom 5 (repeat x00 32) [x05] (fun _ => x00))) by reflexivity.
    assert (E2 : forall r, encrypt_header toy_lib one_password (mkRandom 5 (repeat x01 32) [x05] r) =
                 encrypt_header toy_lib one_password (mkRandom 5 (repeat x01 32) [x05] (fun _ => x00))) by reflexivity.
    rewrite E1 in H1. rewrite E2 in H2.
    assert (X : match encrypt_header toy_lib one_password (mkRandom 5 (repeat x00 32) [x05] (fun _ => x00)),
                      encrypt_header toy_lib one_password (mkRandom 5 (repeat x01 32) [x05] (fun _ => x00)) with
                | Ok (s, _, _), Ok (s', _, _) => option_map hd_payload_key (decode_header s) <> option_map hd_payload_key (decode_header s')
                | _, _ => True end) by (vm_compute; discriminate).
    rewrite H1, H2 in X. exact X.
Qed.
Print Assumptions C59_needs_insufficient_credentials.

(** ** C60: who does not know the payload key learns only the length of the data *)

Theorem C60_only_the_length_is_revealed :
  forall lib hidden opts er src1 src2 w r1 w1 r2 w2,
    lib_ok lib -> random_ok er -> hidden (er_payload_key er) = true ->
    length (flat src1) = length (flat src2) -> ends_in_error src1 = ends_in_error src2 ->
    encrypt_stream (blind_lib hidden lib) opts er src1 w r1 w1 ->
    encrypt_stream (blind_lib hidden lib) opts er src2 w r2 w2 ->
    w_out w1 = w_out w2 /\ (r1 = Ok tt <-> r2 = Ok tt).
Proof. exact file_hiding. Qed.
Print Assumptions C60_only_the_length_is_revealed.

Definition hide_payload (k : bytes) : bool := bytes_eqb k (er_payload_key ex_random).
Definition ex_data2 : source := [RData [x7a]; RData [x79; x78]].
Example C60_case :
  (exists r1 w1 r2 w2, encrypt_stream (blind_lib hide_payload toy_lib) ex_opts ex_random ex_data ex_out r1 w1 /\
                       encrypt_stream (blind_lib hide_payload toy_lib) ex_opts ex_random ex_data2 ex_out r2 w2) /\
  forall r1 w1 r2 w2, encrypt_stream (blind_lib hide_payload toy_lib) ex_opts ex_random ex_data ex_out r1 w1 ->
                      encrypt_stream (blind_lib hide_payload toy_lib) ex_opts ex_random ex_data2 ex_out r2 w2 ->
                      w_out w1 = w_out w2.
Proof.
  split.
  - assert (X : forall src, exists r w, encrypt_stream (blind_lib hide_payload toy_lib) ex_opts ex_random src ex_out r w)
      by (intros src; apply (blind_runs hide_payload toy_lib ex_opts ex_random src ex_out toy_lib_ok ex_random_ok)).
    destruct (X ex_data) as (r1 & w1 & H1), (X ex_data2) as (r2 & w2 & H2). exists r1, w1, r2, w2. split; assumption.
  - intros r1 w1 r2 w2 H1 H2.
    refine (proj1 (C60_only_the_length_is_revealed toy_lib hide_payload ex_opts ex_random ex_data ex_data2 ex_out r1 w1 r2 w2
      toy_lib_ok ex_random_ok _ _ _ H1 H2)); [apply bytes_eqb_refl|reflexivity|reflexivity].
Qed.

(** ** C61: a file is encrypted under the keys drawn for it *)

Theorem C61_files_use_the_keys_drawn_for_them :
  forall lib opts er src w w',
    lib_ok lib -> random_ok er -> wf_cred (expression opts) ->
    encrypt_stream lib opts er src w (Ok tt) w' -> (lenN (flat src) < 2 ^ 64)%N ->
    exists cs ser frame h p c,
      lib (chosen opts) = Some cs /\
      (* the file is the framed header and the data, encrypted under the payload key drawn *)
      w_out w' = w_out w ++ frame ++ concat (map se_ct (sealed_data cs (er_payload_key er) (cs_hash cs ser) (N.to_nat c) (flat src))) /\
      is_frame ser frame /\ decode_header ser = Some h /\ announced ser = chosen opts /\
      (* the key pair is made from the seed drawn *)
      hd_ephemeral_pk h = fst (cs_keypair cs (er_seed er)) /\
      (* the protected part, under the payload key *)
      hd_protected h = se_ct (seal cs (er_payload_key er) nonce_of_header [] p) /\
      decode_protected p = Some (mkProtected 1 (hd_ephemeral_pk h) c) /\
      (* each recipient's part, under that recipient's key *)
      length (header_keys ser) = length (leaves (expression opts)) /\
      forall i r ct, nth_error (leaves (expression opts)) i = Some r -> nth_error (header_keys ser) i = Some ct ->
        exists m, sealed_for cs (hd_ephemeral_pk h) (snd (cs_keypair cs (er_seed er))) i r m ct.
Proof. intros lib opts er src w w' Hl Hr Hw H Hm. exact (layout lib opts er Hl Hr Hw src w w' H Hm). Qed.
Print Assumptions C61_files_use_the_keys_drawn_for_them.

Example C61_case : exists w', encrypt_stream toy_lib ex_opts ex_random ex_data ex_out (Ok tt) w' /\
  (lenN (flat ex_data) < 2 ^ 64)%N /\ wf_cred (expression ex_opts).
Proof.
  destruct (encrypt_stream_works toy_lib ex_opts ex_random ex_ser ex_codec 1044520 toy_lib_ok ex_random_ok ex_encrypts ex_data ex_out)
    as [w' HE]; [vm_compute; discriminate|reflexivity..|].
  exists w'. split; [exact HE|]. split; [reflexivity|exact ex_wf].
Qed.

(** ** C62: what an accepted header says *)

Theorem C62_accepted_headers :
  forall lib ser D cod chunk,
    decrypt_header lib ser D = Ok (cod, chunk) ->
    exists h k ct tag p,
      decode_header ser = Some h /\
      (* a known algorithm, a key of the right size, recipients, a payload key of the right size *)
      hd_family h = Some (if announced ser then 1 else 2)%N /\ lib (announced ser) = Some (co_cs cod) /\
      length (hd_ephemeral_pk h) = 32 /\ hd_payload_key h = Some k /\ length (co_key cod) = 32 /\
      (* a protected part that authenticates under the payload key and names an anonymous sender, the
         same ephemeral key and the chunk size that will be used *)
      hd_protected h = ct ++ tag /\ length tag = 16 /\
      cs_aead_decrypt (co_cs cod) ct [] (co_key cod) nonce_of_header tag = Some p /\
      decode_protected p = Some (mkProtected 1 (hd_ephemeral_pk h) chunk) /\
      co_header_hash cod = cs_hash (co_cs cod) ser /\ co_encrypting cod = false.
Proof. exact accepted_header. Qed.
Print Assumptions C62_accepted_headers.

(** The header of [ex_opts] is accepted ([C07_case]).  A header whose protected part names another sender,
    or another way to authenticate the sender, is not, though its payload key opens. *)
Definition with_protected (p : protected_header) : bytes :=
  match decode_header ex_ser with
  | Some h => encode_header (mkHeader (hd_family h) (hd_ephemeral_pk h) (hd_payload_key h)
                (se_ct (seal toy_cs (er_payload_key ex_random) nonce_of_header [] (encode_protected p))))
  | None => []
  end.
Example C62_case :
  with_protected (mkProtected 1 (ephemeral ex_codec ex_random) 1044520) = ex_ser /\
  decrypt_header toy_lib (with_protected (mkProtected 1 (repeat x09 32) 1044520)) ex_D = Err EWrongSenderPk /\
  decrypt_header toy_lib (with_protected (mkProtected 2 (ephemeral ex_codec ex_random) 1044520)) ex_D = Err EUnknownSenderAuth /\
  decrypt_header toy_lib (with_protected (mkProtected 1 (ephemeral ex_codec ex_random) 1044521)) ex_D = Err EChunkMisaligned.
Proof. vm_compute. repeat split. Qed.

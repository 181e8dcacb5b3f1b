(** C10, C21, C22: whole files.

    Vocabulary: [encrypt_stream]/[decrypt_stream] (FileCrypto): header and data of one file, under some
    schedule; [encrypted_with]/[boxed_with], the nonces and [forgery_alg]/[collision] (FileSpec);
    [sat], [no_accident], [lib_ok], [random_ok], [wf_cred] (CredSpec). *)
From Coq Require Import List NArith Bool Lia Arith.
From Coq.Strings Require Import Byte.
From Verif Require Import Base BaseFacts Shamir Errors Io HeaderIo HeaderIoSpec HeaderIoProofs Crypto Proto HeaderCrypto CredSpec
  StreamCrypto Pipeline StreamSpec ChunkProofs FileCrypto AuthSpec FileSpec StreamProofs StreamProofs3 FileProofs FileProofs2 ToyCrypto PropHeader.
Import ListNotations.

(** ** C10: no nonce is used twice *)

Theorem C10_nonces_are_never_reused :
  forall lib opts er src w w' ser cod chunk,
    lib_ok lib -> random_ok er -> wf_cred (expression opts) ->
    encrypt_header lib opts er = Ok (ser, cod, chunk) ->
    encrypt_stream lib opts er src w (Ok tt) w' -> (lenN (flat src) < 2 ^ 64)%N ->
    let recipients := leaves (expression opts) in
    exists h frame cts,
      (* the parts of the file and their nonces *)
      w_out w' = w_out w ++ frame ++ concat cts /\ is_frame ser frame /\ decode_header ser = Some h /\
      encrypted_with (co_cs cod) nonce_of_header (hd_protected h) /\
      length (header_keys ser) = length recipients /\
      (forall i r ct, nth_error recipients i = Some r -> nth_error (header_keys ser) i = Some ct ->
         (by_secret r = true /\ encrypted_with (co_cs cod) (nonce_of_recipient i) ct) \/
         (by_public_key r = true /\ boxed_with (co_cs cod) (box_nonce_of_recipient i) ct)) /\
      (forall i, i < length cts -> encrypted_with (co_cs cod) (nonce_of_chunk i) (nth i cts [])) /\
      (* are distinct *)
      NoDup (nonce_of_header :: map nonce_of_recipient (positions by_secret recipients) ++ map nonce_of_chunk (seq 0 (length cts))) /\
      NoDup (map box_nonce_of_recipient (positions by_public_key recipients)).
Proof.
  intros lib opts er src w w' ser cod chunk Hlib Hr Hwf He HE Hm recipients.
  destruct (encrypt_stream_ok lib opts er ser cod chunk Hlib Hr He _ _ _ HE) as (HL & Ho & _).
  destruct (header_ciphertexts lib opts er ser cod chunk Hwf He HL) as (h & Hd & Hp & Hk & H32 & Hrec).
  destruct (cod_parts lib opts er ser cod chunk Hlib He) as (Hok & Hen & _).
  pose proof (c_pos lib opts er ser cod chunk Hr He) as Hc.
  pose proof (fun i => data_ciphertexts cod chunk (flat src) i Hok Hen Hc Hm) as Hdata.
  assert (Hpos : forall f i, In i (positions f recipients) -> (N.of_nat i < two32)%N).
  { intros f i Hi. apply positions_in in Hi. unfold recipients, lenN in *. lia. }
  exists h, (frame_of ser), (enc_chunks cod (N.to_nat chunk) (flat src)).
  split; [exact Ho|]. split; [apply frame_spec; [unfold MAX_HEADER_LEN, two32 in *; lia|reflexivity]|].
  split; [exact Hd|]. split; [exact Hp|]. split; [exact Hk|]. split; [exact Hrec|].
  split; [intros i Hi; apply Hdata; exact Hi|]. split.
  - apply all_nonces_distinct; [apply positions_NoDup|apply Hpos|intros i Hi; apply Hdata; exact Hi].
  - apply NoDup_map_on; [apply positions_NoDup|]. intros i j Hi Hj. apply box_nonce_inj; eapply Hpos; eassumption.
Qed.
Print Assumptions C10_nonces_are_never_reused.

(** ** C22: whole-file round trip *)

Theorem C22_file_round_trip :
  forall lib opts er src w w' ser cod chunk D src2 v r v',
    lib_ok lib -> random_ok er -> wf_cred (expression opts) ->
    encrypt_header lib opts er = Ok (ser, cod, chunk) ->
    encrypt_stream lib opts er src w (Ok tt) w' ->
    w_out w' = w_out w ++ flat src2 -> ends_in_error src2 = false ->
    Forall (decryption_cred (co_cs cod)) D ->
    no_accident (co_cs cod) (ephemeral cod er) D (leaves (expression opts)) (header_keys ser) ->
    sat (co_cs cod) D (expression opts) ->
    decrypt_stream lib D src2 v r v' -> room_for v (length (flat src)) -> w_flush_ok v = true ->
    r = Ok tt /\ w_out v' = w_out v ++ flat src /\ w_flushed v' = true.
Proof.
  intros lib opts er src w w' ser cod chunk D src2 v r v' Hlib Hr Hwf He HE Ho Ee HD Ha Hs H Hroom Hfl.
  destruct (file_round lib opts er ser cod chunk Hlib Hr Hwf He D src w w' src2 v r v' HE Ho Ee HD Ha H)
    as [(_ & H1 & H2)|(Hn & _)]; [|contradiction].
  assert (r = Ok tt) by (apply H1; auto). auto.
Qed.
Print Assumptions C22_file_round_trip.

(** Without sufficient credentials nothing is written. *)
Theorem C22_insufficient_credentials_write_nothing :
  forall lib opts er src w w' ser cod chunk D src2 v r v',
    lib_ok lib -> random_ok er -> wf_cred (expression opts) ->
    encrypt_header lib opts er = Ok (ser, cod, chunk) ->
    encrypt_stream lib opts er src w (Ok tt) w' ->
    w_out w' = w_out w ++ flat src2 -> ends_in_error src2 = false ->
    Forall (decryption_cred (co_cs cod)) D ->
    no_accident (co_cs cod) (ephemeral cod er) D (leaves (expression opts)) (header_keys ser) ->
    ~ sat (co_cs cod) D (expression opts) ->
    decrypt_stream lib D src2 v r v' ->
    r = Err EInsufficientCredentials /\ v' = v.
Proof.
  intros lib opts er src w w' ser cod chunk D src2 v r v' Hlib Hr Hwf He HE Ho Ee HD Ha Hs H.
  destruct (file_round lib opts er ser cod chunk Hlib Hr Hwf He D src w w' src2 v r v' HE Ho Ee HD Ha H)
    as [(Hn & _)|(_ & H1)]; [contradiction|exact H1].
Qed.
Print Assumptions C22_insufficient_credentials_write_nothing.

(** Encryption does write a file whenever the input and output streams work and the header is not too
    long; its size is that of the framed header, the data and 16 bytes per chunk. *)
Theorem C22_encryption_writes_a_file :
  forall lib opts er src w ser cod chunk,
    lib_ok lib -> random_ok er ->
    encrypt_header lib opts er = Ok (ser, cod, chunk) -> (lenN ser <= 16777216)%N ->
    ends_in_error src = false -> w_room w = None -> w_flush_ok w = true ->
    exists w' frame, encrypt_stream lib opts er src w (Ok tt) w' /\ is_frame ser frame /\
      prefix_of (w_out w ++ frame) (w_out w') /\
      let n := length (flat src) in
      length (w_out w') = length (w_out w) + length frame + n + 16 * Nat.max 1 ((n + N.to_nat chunk - 1) / N.to_nat chunk).
Proof.
  intros lib opts er src w ser cod chunk Hlib Hr He HL Ee Hw Hf.
  destruct (encrypt_stream_works lib opts er ser cod chunk Hlib Hr He src w HL Ee Hw Hf) as [w' HE].
  destruct (encrypt_stream_ok lib opts er ser cod chunk Hlib Hr He _ _ _ HE) as (_ & Ho & _).
  destruct (cod_parts lib opts er ser cod chunk Hlib He) as (Hok & Hen & _).
  pose proof (c_pos lib opts er ser cod chunk Hr He) as Hc.
  exists w', (frame_of ser). split; [exact HE|].
  split; [apply frame_spec; [unfold two32; lia|reflexivity]|]. rewrite Ho. split.
  - rewrite app_assoc. eexists. reflexivity.
  - cbv zeta. rewrite !app_length, enc_size, chunks_count by assumption. lia.
Qed.
Print Assumptions C22_encryption_writes_a_file.

(** ** C21: any change to the file is detected *)

Theorem C21_modified_files_are_detected :
  forall lib opts er src w w' ser cod chunk src' D ser' n rest cod' chunk' v v',
    lib_ok lib -> random_ok er -> wf_cred (expression opts) ->
    (* an encrypted file *)
    encrypt_header lib opts er = Ok (ser, cod, chunk) ->
    encrypt_stream lib opts er src w (Ok tt) w' -> (lenN (flat src) < 2 ^ 64)%N ->
    (* any file decrypted under its payload key *)
    read_header src' = Ok (ser', n, rest) -> decrypt_header lib ser' D = Ok (cod', chunk') -> co_key cod' = co_key cod ->
    decrypt_stream lib D src' v (Ok tt) v' -> (lenN (flat src') < 2 ^ 64)%N ->
    let a := if eo_fast opts then AES256GCM else ChaCha20Poly1305Ietf in
    let protected := encode_protected (mkProtected 1 (ephemeral cod er) chunk) in
    (w_out w' = w_out w ++ flat src' /\ w_out v' = w_out v ++ flat src) \/
    collision lib a ser ser' \/
    forgery_alg lib (co_key cod)
      a (made_for_file (co_cs cod) (co_key cod) (co_header_hash cod) (N.to_nat chunk) protected (flat src))
      (announced ser') (presented (co_header_hash cod') (N.to_nat chunk' + 16) rest).
Proof.
  intros lib opts er src w w' ser cod chunk src' D ser' n rest cod' chunk' v v' Hlib Hr Hwf He HE Hm Hrd Hd Hk H Hs a protected.
  destruct (file_tampered lib opts er ser cod chunk Hlib Hr Hwf He src w w' src' D ser' n rest cod' chunk' v v' HE Hm Hs Hrd Hd Hk H)
    as [F|[C|E]]; auto.
Qed.
Print Assumptions C21_modified_files_are_detected.

(** ** Concrete cases *)

Definition ex_data : source := [RData [x61; x62]; RInterrupted; RData [x63]].
Definition ex_out : sink := mkSink [] None true false.

Lemma one_chunk n d : 1 <= n -> length d <= n -> chunks n d = [d].
Proof.
  intros Hn H. apply (split_unique n d); [lia|apply chunks_split; lia|].
  exists [], d. split; [reflexivity|]. split; [reflexivity|]. split; [constructor|]. split; [assumption|congruence].
Qed.

(** The file of [PropHeader.ex_opts] (a 3-of-4 expression), with three bytes of data, is written and
    decrypted again by [ex_D]. *)
Example C22_case : exists w', encrypt_stream toy_lib ex_opts ex_random ex_data ex_out (Ok tt) w' /\
  (exists r v', decrypt_stream toy_lib ex_D [RData (w_out w')] ex_out r v') /\
  forall r v', decrypt_stream toy_lib ex_D [RData (w_out w')] ex_out r v' -> r = Ok tt /\ w_out v' = [x61; x62; x63].
Proof.
  destruct (encrypt_stream_works toy_lib ex_opts ex_random ex_ser ex_codec 1044520 toy_lib_ok ex_random_ok ex_encrypts ex_data ex_out)
    as [w' HE]; [vm_compute; discriminate|reflexivity..|].
  exists w'. split; [exact HE|].
  destruct (encrypt_stream_ok toy_lib ex_opts ex_random ex_ser ex_codec 1044520 toy_lib_ok ex_random_ok ex_encrypts _ _ _ HE) as (HL & Ho & _).
  assert (Hne : flat [RData (w_out w')] = w_out w').
  { cbn [flat]. destruct (w_out w'); [reflexivity|]. apply app_nil_r. }
  split.
  - destruct (read_header_complete [RData (w_out w')] ex_ser
      (concat (enc_chunks ex_codec (N.to_nat 1044520) (flat ex_data)))) as (s & Hs & _ & _).
    { split; [vm_compute; discriminate|exact HL]. }
    { rewrite Hne, Ho. change (w_out ex_out) with (@nil byte). apply app_nil_l. }
    unfold decrypt_stream. rewrite Hs, C07_case.
    apply convert_stream_exists. apply codec_pipe_ok; [exact toy_ok|vm_compute; reflexivity|right; reflexivity].
  - intros r v' H.
    refine (match C22_file_round_trip toy_lib ex_opts ex_random ex_data ex_out w' ex_ser ex_codec 1044520 ex_D [RData (w_out w')] ex_out r v'
      toy_lib_ok ex_random_ok ex_wf ex_encrypts HE _ _ ex_D_ok ex_no_accident ex_sat H _ _ with conj H1 (conj H2 _) => conj H1 H2 end).
    + rewrite Hne. symmetry. change (w_out ex_out) with (@nil byte). apply app_nil_l.
    + cbn [ends_in_error]. destruct (w_out w'); reflexivity.
    + exact Logic.I.
    + reflexivity.
Qed.

(** A modified file: an unknown protobuf field (number 15, value 1) appended to the header of that file,
    the rest unchanged.  Its header still opens with the same payload key, yet the file is refused, as
    C21 demands: nothing is forged and the two headers hash differently. *)
Definition ex_ser' : bytes := ex_ser ++ [x78; x01].
Definition ex_body : bytes :=
  let '(c, t) := cs_aead_encrypt toy_cs [x61; x62; x63] (co_header_hash ex_codec ++ [x01]) (co_key ex_codec) (nonce_of_chunk 0) in
  c ++ t.
Definition ex_codec' : codec := mkCodec toy_cs (co_key ex_codec) (cs_hash toy_cs ex_ser') false.

Lemma ex_body_is : concat (enc_chunks ex_codec (N.to_nat 1044520) (flat ex_data)) = ex_body.
Proof.
  unfold enc_chunks. change (flat ex_data) with [x61; x62; x63].
  assert (Hc : 3 <= N.to_nat 1044520) by lia. revert Hc. generalize (N.to_nat 1044520). intros c Hc.
  rewrite one_chunk by (cbn [length]; lia). vm_compute. reflexivity.
Qed.

Lemma ex_refused : cs_aead_decrypt toy_cs (firstn 3 ex_body) (ad_of_chunk (co_header_hash ex_codec') true) (co_key ex_codec)
  (nonce_of_chunk 0) (skipn 3 ex_body) = None.
Proof. vm_compute. reflexivity. Qed.
Lemma ex_hashes : bytes_eqb (cs_hash toy_cs ex_ser) (cs_hash toy_cs ex_ser') = false.
Proof. vm_compute. reflexivity. Qed.
Lemma ex_frames : bytes_eqb (frame_of ex_ser) (frame_of ex_ser') = false.
Proof. vm_compute. reflexivity. Qed.
Lemma single_presented h n rest body s : 1 <= n -> length body <= n -> flat rest = body -> ends_in_error rest = false ->
  In s (presented h n rest) -> s = mkSealed (nonce_of_chunk 0) (ad_of_chunk h true) body.
Proof.
  intros Hn Hl Hrest Er Hin. unfold presented, input_chunks in Hin. rewrite Er, Hrest, one_chunk in Hin by assumption.
  destruct Hin as [<-|[]]. reflexivity.
Qed.

Lemma accepted_split cs key n ad body k : accepted cs key (mkSealed n ad body) -> length body = k + 16 ->
  cs_aead_decrypt cs (firstn k body) ad key n (skipn k body) <> None.
Proof.
  intros (ct & tag & m & E & Ht & Hx) Hk. cbn [se_ct se_ad se_nonce] in E, Hx.
  assert (length ct = k) as <- by (rewrite E, app_length in Hk; lia).
  rewrite E, firstn_app_exact, skipn_app_exact, Hx. discriminate.
Qed.

Lemma ex_body_length : length ex_body = 3 + 16.
Proof. vm_compute. reflexivity. Qed.

Lemma ex_not_accepted n rest : 19 <= n -> flat rest = ex_body -> ends_in_error rest = false ->
  forall s, In s (presented (co_header_hash ex_codec') n rest) -> ~ accepted toy_cs (co_key ex_codec) s.
Proof.
  intros Hn Hrest Er s Hin Hacc. apply (single_presented _ _ _ ex_body) in Hin; [|lia|rewrite ex_body_length; lia|assumption..].
  rewrite Hin in Hacc. exact (accepted_split _ _ _ _ _ 3 Hacc ex_body_length ex_refused).
Qed.

Example C21_case :
  decrypt_header toy_lib ex_ser' ex_D = Ok (ex_codec', 1044520%N) /\ co_key ex_codec' = co_key ex_codec /\
  ~ collision toy_lib ChaCha20Poly1305Ietf ex_ser ex_ser' /\
  forall src' v r v', flat src' = frame_of ex_ser' ++ ex_body -> ends_in_error src' = false ->
    decrypt_stream toy_lib ex_D src' v r v' -> r <> Ok tt.
Proof.
  assert (Hd : decrypt_header toy_lib ex_ser' ex_D = Ok (ex_codec', 1044520%N)) by (vm_compute; reflexivity).
  assert (NC : ~ collision toy_lib ChaCha20Poly1305Ietf ex_ser ex_ser').
  { intros (cs & Hcs & _ & H). injection Hcs as <-. apply bytes_eqb_eq in H. rewrite ex_hashes in H. discriminate H. }
  split; [exact Hd|]. split; [reflexivity|]. split; [exact NC|].
  intros src' v r v' Hf Ee H ->.
  destruct (encrypt_stream_works toy_lib ex_opts ex_random ex_ser ex_codec 1044520 toy_lib_ok ex_random_ok ex_encrypts ex_data ex_out)
    as [w' HE]; [vm_compute; discriminate|reflexivity..|].
  destruct (encrypt_stream_ok toy_lib ex_opts ex_random ex_ser ex_codec 1044520 toy_lib_ok ex_random_ok ex_encrypts _ _ _ HE) as (HL & Ho & _).
  destruct (read_header_complete src' ex_ser' ex_body) as (rest & Hrd & Hrest & Er);
    [split; vm_compute; discriminate|exact Hf|].
  destruct (C21_modified_files_are_detected toy_lib ex_opts ex_random ex_data ex_out w' ex_ser ex_codec 1044520 src' ex_D ex_ser'
    _ rest ex_codec' 1044520 v v' toy_lib_ok ex_random_ok ex_wf ex_encrypts HE eq_refl Hrd Hd eq_refl H) as [[E _]|[C|F]].
  - unfold lenN. rewrite Hf. vm_compute. reflexivity.
  - rewrite Ho, Hf, ex_body_is in E. change (w_out ex_out) with (@nil byte) in E.
    rewrite !app_nil_l in E. apply app_inv_tail in E. apply bytes_eqb_eq in E. rewrite ex_frames in E. discriminate E.
  - exact (NC C).
  - destruct F as (cs & s & Hcs & Hin & Hacc & _). injection Hcs as <-.
    refine (ex_not_accepted _ rest _ Hrest (eq_trans Er Ee) s Hin Hacc). lia.
Qed.

(** C88: what a conversion gives is determined by the bytes and the credentials.

    Vocabulary: [conversion], one encryption or decryption under some schedule of the threads and some division of the
    input into pieces (Commands); [is_conversion], the complete result of one (FsSpec); [same_source], [same_result],
    [roomy], [opens_under_two_keys] (SameSpec). *)
From Coq.Strings Require Import Byte String.
From Coq Require Import List NArith ZArith Bool PeanoNat Lia.
From Verif Require Import Base BaseFacts Shamir Errors Io HeaderIo HeaderIoSpec HeaderIoProofs StreamSpec Crypto Proto HeaderCrypto CredSpec
  StreamCrypto Pipeline FileCrypto AuthSpec FileSpec Ui Cli Fs Commands FsSpec ConvProofs ToyCrypto PropHeader SameSpec SameProofs.
Import ListNotations.
Local Open Scope nat_scope.

(** ** Chance does not matter *)

(** Also for hostile input.  Only when the input breaks, or the output cannot be written, may the schedule decide which
    error is reported. *)
Theorem C88_chance_does_not_matter :
  forall lib d er src src' w r w1 r' w1',
    lib_ok lib -> random_ok er -> same_source src src' ->
    conversion lib d er src w r w1 -> conversion lib d er src' w r' w1' ->
    w_out w1 = w_out w1' /\ same_result r r' /\ (ends_in_error src = false -> roomy w -> r = r').
Proof. intros lib d er src src' w r w1 r' w1' Hl. exact (conversion_same lib Hl d er src src' w r w1 r' w1'). Qed.
Print Assumptions C88_chance_does_not_matter.

(** ** All who can open a file get the same content *)

(** Whoever made the file: either the contents are equal, or the header of this very file opens under two keys. *)
Theorem C88_one_content :
  forall lib D D' b c c',
    lib_ok lib -> is_conversion lib (DoDecrypt D) b c -> is_conversion lib (DoDecrypt D') b c' ->
    c = c' \/ opens_under_two_keys lib b.
Proof. intros lib D D' b c c' Hl. exact (one_content lib Hl D D' b c c'). Qed.
Print Assumptions C88_one_content.

(** ** The exception is real *)

(** An encryption whose tag does not depend on the last byte of the key, which only masks the data. *)
Definition loose_mask (ad k : bytes) (m : bytes) : bytes :=
  match ad with [] => m | _ => map (bxor (nth 31 k x00)) m end.
Definition loose_tag (ad k n c : bytes) : bytes := pad_to 16 (toy_sum 16 (firstn 31 k ++ n ++ ad ++ c)).
Definition loose_cs : cryptosys := {|
  cs_hash := cs_hash toy_cs; cs_hmac := cs_hmac toy_cs;
  cs_aead_encrypt m ad k n := (loose_mask ad k m, loose_tag ad k n (loose_mask ad k m));
  cs_aead_decrypt c ad k n t := if bytes_eqb t (loose_tag ad k n c) then Some (loose_mask ad k c) else None;
  cs_keypair := cs_keypair toy_cs; cs_beforenm := cs_beforenm toy_cs; cs_box_seal := cs_box_seal toy_cs;
  cs_box_open := cs_box_open toy_cs; cs_kdf := cs_kdf toy_cs |}.
Definition loose_lib : crypto_lib := fun _ => Some loose_cs.

Lemma loose_mask_length ad k m : length (loose_mask ad k m) = length m.
Proof. unfold loose_mask. destruct ad; [reflexivity|apply map_length]. Qed.
Lemma loose_mask_twice ad k m : loose_mask ad k (loose_mask ad k m) = m.
Proof.
  unfold loose_mask. destruct ad; [reflexivity|]. rewrite map_map. induction m as [|x m IH]; [reflexivity|]. cbn [map]. rewrite IH. f_equal.
  apply bxor_cancel_l.
Qed.
Lemma loose_lib_ok : lib_ok loose_lib.
Proof.
  intros a cs [= <-]. constructor; try apply toy_ok; cbn [loose_cs cs_aead_encrypt cs_aead_decrypt fst snd]; intros.
  - apply loose_mask_length.
  - apply pad_to_length.
  - now rewrite bytes_eqb_refl, loose_mask_twice.
  - destruct (bytes_eqb _ _) in H; [|discriminate]. injection H as <-. apply loose_mask_length.
Qed.

(** A file for two recipients whose slots hold different payload keys. *)
Definition salamander_key (b : byte) : bytes := repeat x07 31 ++ [b].
Definition salamander_eph : bytes := toy_pk ex_seed.
(** What the recipient with the symmetric key [repeat b 32] opens a slot with. *)
Definition slot_key (b : byte) : bytes := cs_hmac toy_cs (salamander_eph ++ repeat b 32) SYMMETRIC_SECRET_NONCE.
Definition salamander_ser : bytes := encode_header (mkHeader (Some 1%N) salamander_eph
  (Some (1%N, [(1%N, KEnc (aead_encrypt_easy loose_cs (salamander_key x01) (slot_key x41) (recipient_secret_nonce 0)));
               (1%N, KEnc (aead_encrypt_easy loose_cs (salamander_key x03) (slot_key x42) (recipient_secret_nonce 1)))]))
  (aead_encrypt_easy loose_cs (encode_protected (mkProtected 1 salamander_eph 1044520)) (salamander_key x01) nonce_of_header)).
Definition salamander_codec (b : byte) : codec := mkCodec loose_cs (salamander_key b) (cs_hash loose_cs salamander_ser) false.
Definition salamander_body : bytes :=
  let '(c, t) := cs_aead_encrypt loose_cs [x61; x62; x63] (cs_hash loose_cs salamander_ser ++ [x01]) (salamander_key x01) (nonce_of_chunk 0) in c ++ t.

Lemma salamander_body_length : length salamander_body = 19.
Proof. vm_compute. reflexivity. Qed.

Theorem C88_one_content_always_refuted :
  exists lib D D' b c c',
    lib_ok lib /\ is_conversion lib (DoDecrypt D) b c /\ is_conversion lib (DoDecrypt D') b c' /\ c <> c'.
Proof.
  exists loose_lib, [SymmetricKey (repeat x41 32)], [SymmetricKey (repeat x42 32)], (frame_of salamander_ser ++ salamander_body),
    [x61; x62; x63], [x63; x60; x61].
  split; [exact loose_lib_ok|]. split; [|split; [|discriminate]].
  - apply (one_chunk_decrypts loose_lib loose_lib_ok salamander_ser [SymmetricKey (repeat x41 32)] (salamander_codec x01) 1044520);
      [split; vm_compute; discriminate|vm_compute; reflexivity|rewrite salamander_body_length; lia|vm_compute; reflexivity].
  - apply (one_chunk_decrypts loose_lib loose_lib_ok salamander_ser [SymmetricKey (repeat x42 32)] (salamander_codec x03) 1044520);
      [split; vm_compute; discriminate|vm_compute; reflexivity|rewrite salamander_body_length; lia|vm_compute; reflexivity].
Qed.
Print Assumptions C88_one_content_always_refuted.

(** ** Concrete cases *)

(** That file, arriving in two ways; every such conversion ends (C38). *)
Definition salamander : bytes := frame_of salamander_ser ++ salamander_body.
Definition salamander_source : source := [RData salamander].
Definition salamander_source' : source := [RData (firstn 5 salamander); RInterrupted; RData (skipn 5 salamander)].
Example C88_chance_case :
  same_source salamander_source salamander_source' /\ salamander_source <> salamander_source' /\
  (exists r w1, conversion loose_lib (DoDecrypt [SymmetricKey (repeat x41 32)]) ex_random salamander_source (mkSink [] None true false) r w1) /\
  (exists r w1, conversion loose_lib (DoDecrypt [SymmetricKey (repeat x41 32)]) ex_random salamander_source' (mkSink [] None true false) r w1).
Proof.
  split; [split; vm_compute; reflexivity|]. split; [intros E; apply (f_equal (@length _)) in E; cbn [length salamander_source salamander_source'] in E; discriminate E|].
  split.
  - exact (conversion_total loose_lib loose_lib_ok (DoDecrypt [SymmetricKey (repeat x41 32)]) ex_random salamander_source (mkSink [] None true false) ex_random_ok).
  - exact (conversion_total loose_lib loose_lib_ok (DoDecrypt [SymmetricKey (repeat x41 32)]) ex_random salamander_source' (mkSink [] None true false) ex_random_ok).
Qed.

(** A file for two recipients made by rypt: both slots hold the same key, and both recipients get the same content,
    so the hypotheses of [C88_one_content] hold and the first outcome is the case. *)
Definition honest_ser : bytes := encode_header (mkHeader (Some 1%N) salamander_eph
  (Some (1%N, [(1%N, KEnc (aead_encrypt_easy toy_cs (salamander_key x01) (slot_key x41) (recipient_secret_nonce 0)));
               (1%N, KEnc (aead_encrypt_easy toy_cs (salamander_key x01) (slot_key x42) (recipient_secret_nonce 1)))]))
  (aead_encrypt_easy toy_cs (encode_protected (mkProtected 1 salamander_eph 1044520)) (salamander_key x01) nonce_of_header)).
Definition honest_codec : codec := mkCodec toy_cs (salamander_key x01) (cs_hash toy_cs honest_ser) false.
Definition honest_body : bytes :=
  let '(c, t) := cs_aead_encrypt toy_cs [x61; x62; x63] (cs_hash toy_cs honest_ser ++ [x01]) (salamander_key x01) (nonce_of_chunk 0) in c ++ t.
Lemma honest_body_length : length honest_body = 19.
Proof. vm_compute. reflexivity. Qed.

Example C88_one_content_case :
  is_conversion toy_lib (DoDecrypt [SymmetricKey (repeat x41 32)]) (frame_of honest_ser ++ honest_body) [x61; x62; x63] /\
  is_conversion toy_lib (DoDecrypt [SymmetricKey (repeat x42 32)]) (frame_of honest_ser ++ honest_body) [x61; x62; x63].
Proof.
  split.
  - apply (one_chunk_decrypts toy_lib toy_lib_ok honest_ser [SymmetricKey (repeat x41 32)] honest_codec 1044520);
      [split; vm_compute; discriminate|vm_compute; reflexivity|rewrite honest_body_length; lia|vm_compute; reflexivity].
  - apply (one_chunk_decrypts toy_lib toy_lib_ok honest_ser [SymmetricKey (repeat x42 32)] honest_codec 1044520);
      [split; vm_compute; discriminate|vm_compute; reflexivity|rewrite honest_body_length; lia|vm_compute; reflexivity].
Qed.

(** C07-C09, C11, C12, C16, C46, C49, C50: the file header.

    Vocabulary (CredSpec): [wf_cred] well-formed expressions, [sat] satisfaction of an expression by
    decryption credentials, [no_accident] no header ciphertext opens under a credential that does not
    match it, [lib_ok] the crypto library is correct (lengths, decryption inverts encryption, key
    agreement), [random_ok] ranges of the random choices. *)
From Coq Require Import List NArith Bool Lia.
From Coq.Strings Require Import Byte.
From Verif Require Import Base BaseFacts Shamir Errors HeaderIo Crypto Proto ProtoSpec ProtoProofs HeaderCrypto SplitProofs
  CredSpec HeaderCryptoProofs HeaderCryptoProofs2 HeaderCryptoProofs3 HeaderCryptoProofs4 ToyCrypto.
Import ListNotations.
Local Open Scope N_scope.

(** The ephemeral public key written into the header. *)
Definition ephemeral (cod : codec) (er : enc_random) : bytes := fst (cs_keypair (co_cs cod) (er_seed er)).

(** ** C07: sufficient credentials always open the header *)

Theorem C07_sufficient_credentials_open :
  forall lib opts er ser cod chunk D,
    lib_ok lib -> random_ok er -> wf_cred (expression opts) ->
    encrypt_header lib opts er = Ok (ser, cod, chunk) -> lenN ser < 2 ^ 64 ->
    Forall (decryption_cred (co_cs cod)) D ->
    no_accident (co_cs cod) (ephemeral cod er) D (leaves (expression opts)) (header_keys ser) ->
    sat (co_cs cod) D (expression opts) ->
    decrypt_header lib ser D = Ok (for_decryption cod, chunk).
Proof.
  intros lib opts er ser cod chunk D Hl Hr Hw He Hn HD Ha Hs.
  destruct (header_round lib opts er ser cod chunk D Hl Hr Hw He Hn HD Ha) as [[H _]|[_ H]]; [exact H|contradiction].
Qed.
Print Assumptions C07_sufficient_credentials_open.

(** ** C08: insufficient credentials never do *)

Theorem C08_insufficient_credentials_are_refused :
  forall lib opts er ser cod chunk D,
    lib_ok lib -> random_ok er -> wf_cred (expression opts) ->
    encrypt_header lib opts er = Ok (ser, cod, chunk) -> lenN ser < 2 ^ 64 ->
    Forall (decryption_cred (co_cs cod)) D ->
    no_accident (co_cs cod) (ephemeral cod er) D (leaves (expression opts)) (header_keys ser) ->
    ~ sat (co_cs cod) D (expression opts) ->
    decrypt_header lib ser D = Err EInsufficientCredentials.
Proof.
  intros lib opts er ser cod chunk D Hl Hr Hw He Hn HD Ha Hs.
  destruct (header_round lib opts er ser cod chunk D Hl Hr Hw He Hn HD Ha) as [[_ H]|[H _]]; [contradiction|exact H].
Qed.
Print Assumptions C08_insufficient_credentials_are_refused.

(** ** C09: only the set of credentials matters *)

Theorem C09_order_and_repetition_do_not_matter :
  forall lib opts er ser cod chunk D D',
    lib_ok lib -> random_ok er -> wf_cred (expression opts) ->
    encrypt_header lib opts er = Ok (ser, cod, chunk) -> lenN ser < 2 ^ 64 ->
    Forall (decryption_cred (co_cs cod)) D ->
    no_accident (co_cs cod) (ephemeral cod er) D (leaves (expression opts)) (header_keys ser) ->
    (forall d, In d D <-> In d D') ->
    decrypt_header lib ser D = decrypt_header lib ser D'.
Proof.
  intros lib opts er ser cod chunk D D' Hl Hr Hw He Hn HD Ha HI.
  assert (I1 : incl D D') by (intros x Hx; now apply HI). assert (I2 : incl D' D) by (intros x Hx; now apply HI).
  assert (HD' : Forall (decryption_cred (co_cs cod)) D') by (rewrite Forall_forall in *; auto).
  pose proof (no_accident_incl _ _ _ _ _ _ I2 Ha) as Ha'.
  destruct (header_round lib opts er ser cod chunk D Hl Hr Hw He Hn HD Ha) as [[-> S]|[-> S]];
    destruct (header_round lib opts er ser cod chunk D' Hl Hr Hw He Hn HD' Ha') as [[-> S']|[-> S']]; auto;
    exfalso; eauto using sat_mono.
Qed.
Print Assumptions C09_order_and_repetition_do_not_matter.

Theorem C09_extra_credentials_do_not_hurt :
  forall lib opts er ser cod chunk D D' res,
    lib_ok lib -> random_ok er -> wf_cred (expression opts) ->
    encrypt_header lib opts er = Ok (ser, cod, chunk) -> lenN ser < 2 ^ 64 ->
    Forall (decryption_cred (co_cs cod)) (D ++ D') ->
    no_accident (co_cs cod) (ephemeral cod er) (D ++ D') (leaves (expression opts)) (header_keys ser) ->
    decrypt_header lib ser D = Ok res -> decrypt_header lib ser (D ++ D') = Ok res.
Proof.
  intros lib opts er ser cod chunk D D' res Hl Hr Hw He Hn HD Ha H.
  assert (I1 : incl D (D ++ D')) by (intros x Hx; apply in_or_app; now left).
  pose proof HD as HD1. apply Forall_app in HD1 as [HD1 _].
  pose proof (no_accident_incl _ _ _ _ _ _ I1 Ha) as Ha1.
  destruct (header_round lib opts er ser cod chunk D Hl Hr Hw He Hn HD1 Ha1) as [[E S]|[E S]]; [|congruence].
  destruct (header_round lib opts er ser cod chunk (D ++ D') Hl Hr Hw He Hn HD Ha) as [[E' S']|[E' S']]; [congruence|].
  exfalso. eauto using sat_mono.
Qed.
Print Assumptions C09_extra_credentials_do_not_hurt.

(** A 3-of-4 expression with a password, a two-share public key and a nested AND group. *)
Definition ex_seed : bytes := [x0a; x0b].
Definition ex_key : bytes := map (fun i => n2b (N.of_nat (3 * i + 100))) (seq 0 32).
Definition ex_opts : encrypt_options :=
  mkEncryptOptions
    [(1, Password [x70; x77]); (2, PublicKey (toy_pk ex_seed));
     (1, Complex [(1, SymmetricKey ex_key); (1, Password [x71])] 2 2)] 4 3 false.
Definition ex_random : enc_random :=
  mkRandom 5 (map (fun i => n2b (N.of_nat i)) (seq 1 32)) [x05; x06] (fun i => n2b (N.of_nat (11 * i + 4))).
Definition ex_ser : bytes := match encrypt_header toy_lib ex_opts ex_random with Ok (s, _, _) => s | _ => [] end.
Definition ex_codec : codec := mkCodec toy_cs (er_payload_key ex_random) (cs_hash toy_cs ex_ser) true.
Definition ex_D : list cred := [Password [x71]; PrivateKey (toy_sk (toy_pk ex_seed)); Password [x70; x77]].
Definition ex_D' : list cred := [Password [x71]; Password [x70; x77]; SymmetricKey ex_key].

Lemma ex_wf : wf_cred (expression ex_opts).
Proof. repeat (constructor; try (simpl; lia); simpl). Qed.
Lemma ex_random_ok : random_ok ex_random.
Proof. split; reflexivity. Qed.
Lemma ex_encrypts : encrypt_header toy_lib ex_opts ex_random = Ok (ex_ser, ex_codec, 1044520).
Proof. vm_compute. reflexivity. Qed.
Lemma ex_D_ok : Forall (decryption_cred (co_cs ex_codec)) ex_D.
Proof. repeat constructor. eexists. reflexivity. Qed.
Lemma ex_no_accident :
  no_accident (co_cs ex_codec) (ephemeral ex_codec ex_random) ex_D (leaves (expression ex_opts)) (header_keys ex_ser).
Proof. apply no_accident_b_ok. vm_compute. reflexivity. Qed.
Lemma ex_no_accident' :
  no_accident (co_cs ex_codec) (ephemeral ex_codec ex_random) ex_D' (leaves (expression ex_opts)) (header_keys ex_ser).
Proof. apply no_accident_b_ok. vm_compute. reflexivity. Qed.
Lemma ex_sat : sat (co_cs ex_codec) ex_D (expression ex_opts).
Proof.
  apply (sat_group _ _ _ _ _ [(1, Password [x70; x77]); (2, PublicKey (toy_pk ex_seed))]).
  - repeat constructor.
  - repeat constructor.
    + eapply sat_leaf; [right; right; now left|reflexivity].
    + eapply sat_leaf; [right; now left|]. exists (toy_pk ex_seed). vm_compute. reflexivity.
  - unfold total_shares. simpl. lia.
Qed.

Example C07_case : decrypt_header toy_lib ex_ser ex_D = Ok (for_decryption ex_codec, 1044520).
Proof.
  apply (C07_sufficient_credentials_open toy_lib ex_opts ex_random ex_ser ex_codec 1044520 ex_D toy_lib_ok ex_random_ok
           ex_wf ex_encrypts); [vm_compute; reflexivity|exact ex_D_ok|exact ex_no_accident|exact ex_sat].
Qed.

(** [ex_D'] holds two of the three required shares. *)
Lemma ex_unsat : ~ sat (co_cs ex_codec) ex_D' (expression ex_opts).
Proof.
  intros H.
  destruct (header_round toy_lib ex_opts ex_random ex_ser ex_codec 1044520 ex_D' toy_lib_ok ex_random_ok ex_wf ex_encrypts)
    as [[E _]|[_ N]]; auto.
  - vm_compute. reflexivity.
  - repeat constructor.
  - exact ex_no_accident'.
  - vm_compute in E. discriminate.
Qed.
Example C08_case : decrypt_header toy_lib ex_ser ex_D' = Err EInsufficientCredentials.
Proof.
  apply (C08_insufficient_credentials_are_refused toy_lib ex_opts ex_random ex_ser ex_codec 1044520 ex_D' toy_lib_ok
           ex_random_ok ex_wf ex_encrypts); [vm_compute; reflexivity|repeat constructor|exact ex_no_accident'|exact ex_unsat].
Qed.
Example C09_case : decrypt_header toy_lib ex_ser (rev ex_D ++ ex_D) = decrypt_header toy_lib ex_ser ex_D.
Proof.
  symmetry. apply (C09_order_and_repetition_do_not_matter toy_lib ex_opts ex_random ex_ser ex_codec 1044520 ex_D _ toy_lib_ok
           ex_random_ok ex_wf ex_encrypts); [vm_compute; reflexivity|exact ex_D_ok|exact ex_no_accident|].
  intros d. rewrite in_app_iff, <- in_rev. tauto.
Qed.

(** ** C50: encryption accepts exactly the realisable expressions *)

Theorem C50_encryption_accepts_exactly_realisable_expressions :
  forall lib opts er,
    random_ok er -> wf_cred (expression opts) ->
    ((exists x, encrypt_header lib opts er = Ok x) <->
     exists cs, lib (if eo_fast opts then AES256GCM else ChaCha20Poly1305Ietf) = Some cs /\
                realisable cs (snd (cs_keypair cs (er_seed er))) 32 (expression opts)).
Proof. exact encrypt_header_accepts. Qed.
Print Assumptions C50_encryption_accepts_exactly_realisable_expressions.

Example C50_case : realisable toy_cs (toy_sk [x05]) 32 (expression ex_opts) /\
  ~ realisable toy_cs (toy_sk [x05]) 32 (Complex [(300, Password [])] 300 2).
Proof.
  split; [|simpl; lia].
  unfold expression, ex_opts. cbn [eo_sub_creds eo_num_shares eo_threshold realisable map fold_right fst snd].
  repeat split; try lia; discriminate.
Qed.

(** ** C11, C12: what the header reveals *)

Theorem C11_header_hides_recipient_types :
  forall lib lib' opts opts' er er' ser cod c ser' cod' c',
    lib_ok lib -> lib_ok lib' -> random_ok er -> random_ok er' ->
    wf_cred (expression opts) -> wf_cred (expression opts') ->
    same_shape (expression opts) (expression opts') -> eo_fast opts = eo_fast opts' ->
    encrypt_header lib opts er = Ok (ser, cod, c) -> encrypt_header lib' opts' er' = Ok (ser', cod', c') ->
    lenN ser < 2 ^ 64 ->
    length ser = length ser' /\
    option_map redact (decode_header ser) = option_map redact (decode_header ser').
Proof.
  intros lib lib' opts opts' er er' ser cod c ser' cod' c' H1 H2 H3 H4 H5 H6 H7 H8 H9 H10 HL.
  destruct (header_shape _ _ _ _ _ _ _ _ _ _ _ _ H1 H2 H3 H4 H5 H6 H7 H8 H9 H10)
    as (h & h' & -> & -> & U & U' & R & _).
  pose proof (redact_length _ _ R) as EL. split; [exact EL|].
  rewrite header_round_trip, header_round_trip; auto.
  - simpl. now rewrite R.
  - unfold lenN in *. now rewrite <- EL.
Qed.
Print Assumptions C11_header_hides_recipient_types.

(** Same structure as [ex_opts], other recipient types. *)
Definition ex_opts2 : encrypt_options :=
  mkEncryptOptions
    [(1, PublicKey (toy_pk [x33])); (2, SymmetricKey [x44]);
     (1, Complex [(1, Password []); (1, PublicKey (toy_pk [x55]))] 2 2)] 4 3 false.
Example C11_case :
  same_shape (expression ex_opts) (expression ex_opts2) /\
  exists ser cod c, encrypt_header toy_lib ex_opts2 ex_random = Ok (ser, cod, c) /\
    length ser = length ex_ser /\ ser <> ex_ser.
Proof.
  split.
  - apply shape_group. constructor; [|constructor; [|constructor; [|constructor]]]; (split; [reflexivity|]);
      try (apply shape_leaf; intros; discriminate).
    apply shape_group. constructor; [|constructor; [|constructor]]; (split; [reflexivity|]);
      apply shape_leaf; intros; discriminate.
  - destruct (encrypt_header toy_lib ex_opts2 ex_random) as [[[ser cod] c]| |] eqn:E; try (vm_compute in E; discriminate).
    exists ser, cod, c. split; [reflexivity|].
    assert (ES : ser = match encrypt_header toy_lib ex_opts2 ex_random with Ok (s, _, _) => s | _ => [] end) by now rewrite E.
    rewrite ES. split; [vm_compute; reflexivity|]. clear.
    apply bytes_eqb_neq. vm_compute. reflexivity.
Qed.

Theorem C12_protected_header_has_constant_size :
  forall lib opts er ser cod chunk,
    lib_ok lib -> random_ok er -> wf_cred (expression opts) ->
    encrypt_header lib opts er = Ok (ser, cod, chunk) -> lenN ser < 2 ^ 64 ->
    exists h, decode_header ser = Some h /\ length (hd_protected h) = 61%nat.
Proof.
  intros lib opts er ser cod chunk H1 H2 H3 H4 HL.
  destruct (header_shape _ _ _ _ _ _ _ _ _ _ _ _ H1 H1 H2 H2 H3 H3 (same_shape_refl _) eq_refl H4 H4)
    as (h & h' & E & _ & U & _ & _ & P).
  exists h. rewrite E. split; auto. apply header_round_trip; auto. now rewrite <- E.
Qed.
Print Assumptions C12_protected_header_has_constant_size.

Example C12_case : exists h, decode_header ex_ser = Some h /\ length (hd_protected h) = 61%nat.
Proof. exact (C12_protected_header_has_constant_size _ _ _ _ _ _ toy_lib_ok ex_random_ok ex_wf ex_encrypts eq_refl). Qed.

(** ** C16: chunk sizes *)

Theorem C16_generated_chunk_sizes_are_valid :
  forall lib opts er ser cod chunk,
    random_ok er -> encrypt_header lib opts er = Ok (ser, cod, chunk) ->
    1024 * 1024 - 4096 <= chunk <= 1024 * 1024 + 4088 /\ chunk mod 8 = 0 /\ check_chunk_size chunk = Ok tt.
Proof.
  intros lib opts er ser cod chunk [Hr _] H.
  destruct (encrypt_header_inv _ _ _ _ _ _ H) as (? & ? & ? & ? & _ & Hc & _ & _ & _ & ->).
  destruct (chosen_bounds er Hr) as (A & B). split; [lia|]. auto.
Qed.
Print Assumptions C16_generated_chunk_sizes_are_valid.

(** Every multiple of 8 in the range can occur. *)
Theorem C16_every_size_in_the_range_occurs :
  forall chunk, 1024 * 1024 - 4096 <= chunk <= 1024 * 1024 + 4088 -> chunk mod 8 = 0 ->
    exists k, k < 1024 /\ forall key seed shares, chosen_chunk_size (mkRandom k key seed shares) = chunk.
Proof.
  intros chunk A B. exists ((chunk - (1048576 - 4096)) / 8).
  assert (E : chunk = 8 * (chunk / 8)) by (pose proof (N.div_mod chunk 8); lia).
  set (q := chunk / 8) in *. clearbody q. subst chunk.
  replace (8 * q - (1048576 - 4096)) with ((q - 130560) * 8) by lia. rewrite N.div_mul by discriminate.
  split; [lia|]. intros. unfold chosen_chunk_size. cbn [er_chunk].
  unfold DEFAULT_CHUNK_SIZE, DEFAULT_CHUNK_SIZE_UNCERTAINTY, FILE_ALIGNMENT. lia.
Qed.
Print Assumptions C16_every_size_in_the_range_occurs.

Theorem C16_decryption_refuses_invalid_chunk_sizes :
  forall lib ser D cod chunk,
    decrypt_header lib ser D = Ok (cod, chunk) -> chunk <= 1024 * 1024 * 1024 /\ chunk mod 8 = 0.
Proof. exact decrypt_header_chunk. Qed.
Print Assumptions C16_decryption_refuses_invalid_chunk_sizes.

Example C16_case : check_chunk_size 1044520 = Ok tt /\ check_chunk_size 1044521 = Err EChunkMisaligned /\
  check_chunk_size 1073741832 = Err EChunkTooLarge.
Proof. repeat split. Qed.

(** ** C46: malformed headers *)

(** The full statement "no header makes decryption panic" is false: whoever knows the public key of a
    recipient can write a header on which decryption with the private key panics. *)
Theorem C46_malformed_headers_refuted :
  forall lib cs seed,
    lib ChaCha20Poly1305Ietf = Some cs -> crypto_ok cs ->
    exists ser, decrypt_header lib ser [PrivateKey (snd (cs_keypair cs seed))] = Panic.
Proof. intros lib cs seed H ok. exact (crafted_empty lib cs [] seed H ok). Qed.
Print Assumptions C46_malformed_headers_refuted.

(** What remains true.  For credentials that decryption can receive, a panic is caused by a group of
    the header in which a several-share member has an empty key, or all parts are required and have
    different lengths. *)
Theorem C46_panics_only_on_malformed_groups :
  forall lib ser D, flat_creds D -> decrypt_header lib ser D = Panic ->
    exists h t l cs ds,
      decode_header ser = Some h /\ hd_payload_key h = Some (t, l) /\
      cryptosys_from_proto lib (hd_family h) = Ok cs /\
      map_out (decryptor_from_credential cs (hd_ephemeral_pk h)) D = Ok ds /\
      malformed_group ds (KComp t l).
Proof.
  intros lib ser D HF H. destruct (decrypt_header_panic lib ser D HF H) as (h & t & l & cs & ds & A & B & C & E & F).
  exists h, t, l, cs, ds. repeat split; auto.
  apply (decrypt_panic cs (hd_ephemeral_pk h) D ds E (KComp t l) (KComp t l) 0); auto; [reflexivity|constructor].
Qed.
Print Assumptions C46_panics_only_on_malformed_groups.

(** A header none of whose encrypted keys opens under the given credentials never causes a panic. *)
Theorem C46_no_panic_when_nothing_opens :
  forall lib ser D,
    flat_creds D ->
    (forall h t l cs ct i d,
        decode_header ser = Some h -> hd_payload_key h = Some (t, l) ->
        cryptosys_from_proto lib (hd_family h) = Ok cs ->
        subtree (KComp t l) 0 (KEnc ct) i -> In d D -> ~ opens cs (hd_ephemeral_pk h) d ct i) ->
    decrypt_header lib ser D <> Panic.
Proof.
  intros lib ser D HF HN H. destruct (decrypt_header_panic lib ser D HF H) as (h & t & l & cs & ds & A & B & C & E & F).
  destruct (closed_none cs (hd_ephemeral_pk h) D ds E (KComp t l) (KComp t l)) with (i := 0) as (X & _); auto.
  - intros ct i d Hin Hs. eapply HN; eauto.
  - reflexivity.
  - constructor.
Qed.
Print Assumptions C46_no_panic_when_nothing_opens.

(** Headers written by encryption never cause a panic. *)
Theorem C46_honest_headers_never_panic :
  forall lib opts er ser cod chunk D,
    lib_ok lib -> random_ok er -> wf_cred (expression opts) ->
    encrypt_header lib opts er = Ok (ser, cod, chunk) -> lenN ser < 2 ^ 64 ->
    Forall (decryption_cred (co_cs cod)) D ->
    no_accident (co_cs cod) (ephemeral cod er) D (leaves (expression opts)) (header_keys ser) ->
    decrypt_header lib ser D <> Panic.
Proof.
  intros lib opts er ser cod chunk D Hl Hr Hw He Hn HD Ha.
  destruct (header_round lib opts er ser cod chunk D Hl Hr Hw He Hn HD Ha) as [[-> _]|[-> _]]; discriminate.
Qed.
Print Assumptions C46_honest_headers_never_panic.

Example C46_case : crypto_ok toy_cs /\ toy_lib ChaCha20Poly1305Ietf = Some toy_cs /\
  decrypt_header toy_lib [xff] [Password []] = Err EHeaderDecode.
Proof. split; [exact toy_ok|]. split; reflexivity. Qed.

(** ** C49: the limit on the size of key schemes *)

(** The full statement "a key scheme of 16 MiB or more is refused with an error" is false for the
    release build: the product of key length and share count wraps around. *)
Theorem C49_oversized_schemes_are_refused_refuted :
  exists key n r, lenN key = 32 /\ n < 2 ^ 64 /\ 16 * 1024 * 1024 <= lenN key * n /\
    split_key_into_key_parts key n 1 r = Panic.
Proof.
  exists (repeat x00 32), (2 ^ 59), (fun _ => x00).
  split; [reflexivity|]. split; [reflexivity|]. split; [|reflexivity]. vm_compute. discriminate.
Qed.
Print Assumptions C49_oversized_schemes_are_refused_refuted.

(** It holds whenever the product fits into 64 bits. *)
Theorem C49_oversized_schemes_are_refused_without_overflow :
  forall key n t r,
    1 <= t -> t <= n -> 16 * 1024 * 1024 <= lenN key * n -> lenN key * n < 2 ^ 64 ->
    split_key_into_key_parts key n t r = Err EKeySchemeTooLarge.
Proof.
  intros key n t r A B C E. rewrite split_cases by exact E.
  destruct (N.eqb_spec t 0); [lia|]. destruct (N.ltb_spec n t); [lia|].
  destruct (N.leb_spec MAX_HEADER_LEN (lenN key * n)) as [|M]; [reflexivity|]. unfold MAX_HEADER_LEN in M. lia.
Qed.
Print Assumptions C49_oversized_schemes_are_refused_without_overflow.

Example C49_case : split_key_into_key_parts (repeat x00 32) 524288 3 (fun _ => x00) = Err EKeySchemeTooLarge.
Proof. apply C49_oversized_schemes_are_refused_without_overflow; try change (lenN (repeat x00 32)) with 32; lia. Qed.

(** C64, C65: rypt on top of libsodium.

    Vocabulary: [sodium_lib so]: the wrapper libsodium.rs over the C functions [so] (LibSodium); [sodium_ok so]: what
    the documentation of libsodium promises about them; [contract]/[lib_contract]: the same promise for the functions
    of the wrapper; [lib_same_within]: equal for all admissible arguments; [sized]: keys of the right size and
    passwords below 4 GiB (ContractSpec); [lib_ok] (CredSpec): the promise for all arguments, which all other theorems
    assume. *)
From Coq.Strings Require Import Byte String.
From Coq Require Import List NArith Bool Lia Arith.
From Verif Require Import Base BaseFacts Errors Io HeaderIo HeaderIoSpec HeaderIoProofs Crypto HeaderCrypto CredSpec StreamCrypto StreamSpec Pipeline FileCrypto Cli Fs Commands.
From Verif Require Import ToyCrypto PropHeader PropFile StreamProofs FileProofs FileProofs2 FsCases FsCases2 LibSodium ContractSpec ContractProofs ContractProofs2 ContractProofs3 ContractProofs4 ContractProofs5.
Import ListNotations.

(** ** C64: the wrapper keeps the contract *)

(** Whichever algorithm is chosen; what it does is reversed by decryption with the same algorithm, keys made by the
    key generator agree, and everything has the right length. *)
Theorem C64_wrapper_keeps_the_contract : forall so, sodium_ok so -> lib_contract (sodium_lib so).
Proof. exact sodium_contract. Qed.
Print Assumptions C64_wrapper_keeps_the_contract.

(** Which algorithms there are. *)
Theorem C64_available_algorithms : forall so a,
  sodium_lib so a <> None <-> so_init_fails so = false /\ (a = AES256GCM -> so_aes_available so = true).
Proof.
  intros so a. unfold sodium_lib. destruct (so_init_fails so).
  - split; [congruence|]. intros [H _]. discriminate H.
  - destruct a; [split; [split; [reflexivity|discriminate]|discriminate]|].
    destruct (so_aes_available so); (split; [|]); try (intros; discriminate); [auto|congruence|].
    intros [_ H]. discriminate (H eq_refl).
Qed.
Print Assumptions C64_available_algorithms.

(** What libsodium promises is enough: a file encrypted by rypt with libsodium is decrypted by rypt with libsodium. *)
Theorem C64_round_trip_with_libsodium :
  forall so opts er src w w' ser cod chunk D src2 v r v',
    sodium_ok so -> random_ok er -> wf_cred (expression opts) -> sized (expression opts) -> Forall sized D ->
    encrypt_header (sodium_lib so) opts er = Ok (ser, cod, chunk) ->
    encrypt_stream (sodium_lib so) opts er src w (Ok tt) w' ->
    w_out w' = w_out w ++ flat src2 -> ends_in_error src2 = false ->
    Forall (decryption_cred (co_cs cod)) D ->
    no_accident (co_cs cod) (ephemeral cod er) D (leaves (expression opts)) (header_keys ser) ->
    sat (co_cs cod) D (expression opts) ->
    decrypt_stream (sodium_lib so) D src2 v r v' -> room_for v (length (flat src)) -> w_flush_ok v = true ->
    r = Ok tt /\ w_out v' = w_out v ++ flat src /\ w_flushed v' = true.
Proof.
  intros so opts er src w w' ser cod chunk D src2 v r v' K. apply contract_round_trip. now apply sodium_contract.
Qed.
Print Assumptions C64_round_trip_with_libsodium.

(** ** C65: the program keeps the contract *)

(** Whatever the library does with inadmissible arguments, the program never gets to see it: for two libraries that
    agree on admissible arguments the possible runs of the program are the same. *)
Theorem C65_only_the_contract_matters :
  forall entry_of lib lib' sha512 files args stdin_is_tty stdout_is_tty stderr_is_tty w status w',
    lib_contract lib -> lib_contract lib' -> lib_same_within lib lib' ->
    (forall c u, parse_command_line sha512 files args stdin_is_tty stdout_is_tty stderr_is_tty (w_ui w) = (Ok c, u) ->
       short_passwords (command_passwords c)) ->
    main entry_of lib sha512 files args stdin_is_tty stdout_is_tty stderr_is_tty w status w' <->
    main entry_of lib' sha512 files args stdin_is_tty stdout_is_tty stderr_is_tty w status w'.
Proof.
  intros entry_of lib lib' sha512 files args a b e w status w' C C' S P.
  pose proof (complete_lib_ok lib C) as K. pose proof (complete_lib_same lib) as S0.
  rewrite <- (main_same entry_of (complete_lib lib) lib' K C' (lib_same_trans _ _ _ S0 S) sha512 files args a b e w status w' P).
  symmetry. apply main_same; auto.
Qed.
Print Assumptions C65_only_the_contract_matters.

(** So all theorems about runs of the program with [lib_ok] libraries hold with the real one. *)
Theorem C65_the_contract_suffices : forall lib, lib_contract lib ->
  exists lib', lib_ok lib' /\ lib_same_within lib' lib /\
    forall entry_of sha512 files args stdin_is_tty stdout_is_tty stderr_is_tty w status w',
      (forall c u, parse_command_line sha512 files args stdin_is_tty stdout_is_tty stderr_is_tty (w_ui w) = (Ok c, u) ->
         short_passwords (command_passwords c)) ->
      main entry_of lib sha512 files args stdin_is_tty stdout_is_tty stderr_is_tty w status w' <->
      main entry_of lib' sha512 files args stdin_is_tty stdout_is_tty stderr_is_tty w status w'.
Proof.
  intros lib C. exists (complete_lib lib). split; [now apply complete_lib_ok|]. split; [apply complete_lib_same|].
  intros entry_of sha512 files args a b e w status w' P. symmetry. apply main_same; auto using complete_lib_ok, complete_lib_same.
Qed.
Print Assumptions C65_the_contract_suffices.

(** The same for single streams: files from anywhere, credentials from anywhere. *)
Theorem C65_streams_keep_the_contract : forall lib lib',
  lib_contract lib -> lib_contract lib' -> lib_same_within lib lib' ->
  (forall opts er src w r w', random_ok er -> sized (expression opts) ->
     encrypt_stream lib opts er src w r w' <-> encrypt_stream lib' opts er src w r w') /\
  (forall D src w r w', Forall sized D -> decrypt_stream lib D src w r w' <-> decrypt_stream lib' D src w r w').
Proof.
  intros lib lib' C C' S. pose proof (complete_lib_ok lib C) as K. pose proof (complete_lib_same lib) as S0.
  pose proof (lib_same_trans _ _ _ S0 S) as S1. split.
  - intros opts er src w r w' Hr HS. rewrite <- (encrypt_stream_same (complete_lib lib) lib' K C' S1 opts er src w r w' Hr HS).
    symmetry. now apply encrypt_stream_same.
  - intros D src w r w' HS. rewrite <- (decrypt_stream_same (complete_lib lib) lib' K C' S1 D src w r w' HS).
    symmetry. now apply decrypt_stream_same.
Qed.
Print Assumptions C65_streams_keep_the_contract.

(** ** A library that misbehaves whenever it may *)

Definition picky_encrypt (m ad n k : bytes) : bytes * bytes :=
  if aead_argsb m k n then cs_aead_encrypt toy_cs m ad k n else ([], []).
Definition picky_decrypt (c t ad n k : bytes) : option bytes :=
  if aead_argsb c k n && Nat.eqb (length t) 16 then cs_aead_decrypt toy_cs c ad k n t else Some [].

Definition picky_sodium : sodium := {|
  so_init_fails := false;
  so_aes_available := true;
  so_hash m := cs_hash toy_cs m ++ zeros 32;
  so_auth m k := if Nat.eqb (length k) 32 then cs_hmac toy_cs m k else [];
  so_chacha_encrypt := picky_encrypt;
  so_chacha_decrypt := picky_decrypt;
  so_aes_encrypt := picky_encrypt;
  so_aes_decrypt := picky_decrypt;
  so_chacha_max := message_limit;
  so_aes_max := message_limit;
  so_sign_keypair := cs_keypair toy_cs;
  so_pk_to_curve25519 pk := if Nat.eqb (length pk) 32 then Some pk else None;
  so_sk_to_curve25519 sk := if Nat.eqb (length sk) 64 then Some (skipn 32 sk) else None;
  so_box_beforenm pk sk := Some (map2 bxor (pad_to 32 pk) (pad_to 32 sk));
  so_box_afternm m n k := if box_argsb m k n then cs_box_seal toy_cs m n k else ([], []);
  so_box_open_afternm c t n k := if box_argsb c k n && Nat.eqb (length t) 16 then cs_box_open toy_cs c n k t else Some [];
  so_pwhash n p s := if kdf_argsb p s then Some (pad_to (N.to_nat n) (cs_kdf toy_cs p s)) else None;
  so_sign_detached m sk := zeros 64;
  so_sign_verify s m pk := true
|}.

Lemma picky_encrypt_ok m ad n k : (lenN m <= message_limit)%N -> length n = 12 -> length k = 32 ->
  let '(c, t) := picky_encrypt m ad n k in length c = length m /\ length t = 16 /\ picky_decrypt c t ad n k = Some m.
Proof.
  intros H1 H2 H3. unfold picky_encrypt.
  destruct (aead_argsP m k n) as [A|A]; [|exfalso; apply A; repeat split; assumption].
  destruct (cs_aead_encrypt toy_cs m ad k n) as [c t] eqn:E.
  pose proof (aead_len _ toy_ok m ad k n) as L1. pose proof (aead_mac_len _ toy_ok m ad k n) as L2. pose proof (aead_inv _ toy_ok m ad k n) as L3.
  rewrite E in L1, L2, L3. cbn [fst snd] in L1, L2, L3. split; [exact L1|]. split; [exact L2|].
  unfold picky_decrypt. rewrite (aead_args_len m c k n L1), L2. destruct (aead_argsP m k n); [exact L3|contradiction].
Qed.
Lemma picky_decrypt_len c t ad n k m : (lenN c <= message_limit)%N -> length n = 12 -> length k = 32 -> length t = 16 ->
  picky_decrypt c t ad n k = Some m -> length m = length c.
Proof.
  intros H1 H2 H3 H4. unfold picky_decrypt. rewrite H4.
  destruct (aead_argsP c k n) as [A|A]; [apply (aead_dec_len _ toy_ok)|exfalso; apply A; repeat split; assumption].
Qed.

Lemma picky_ok : sodium_ok picky_sodium.
Proof.
  constructor; cbn [picky_sodium so_hash so_auth so_chacha_encrypt so_chacha_decrypt so_aes_available so_aes_encrypt so_aes_decrypt so_chacha_max so_aes_max so_sign_keypair so_pk_to_curve25519 so_sk_to_curve25519 so_box_beforenm so_box_afternm so_box_open_afternm so_pwhash]; try discriminate.
  - intros m. rewrite app_length, (hash_len _ toy_ok). reflexivity.
  - intros m k ->. apply (hmac_len _ toy_ok).
  - exact picky_encrypt_ok.
  - exact picky_decrypt_len.
  - intros _. exact picky_encrypt_ok.
  - intros _. exact picky_decrypt_len.
  - split; apply N.le_refl.
  - intros s. destruct (cs_keypair toy_cs s) as [pk sk] eqn:E.
    pose proof (keypair_pk_len _ toy_ok s) as A. pose proof (keypair_sk_len _ toy_ok s) as B. pose proof (keypair_layout _ toy_ok s) as C.
    rewrite E in A, B, C. auto.
  - intros s. destruct (cs_keypair toy_cs s) as [pk sk] eqn:E.
    pose proof (keypair_pk_len _ toy_ok s) as A. pose proof (keypair_sk_len _ toy_ok s) as B. rewrite E in A, B. cbn [fst snd] in A, B.
    rewrite A, B. cbn. eauto.
  - intros s1 s2 a b c d. rewrite !(keypair_pk_len _ toy_ok), !(keypair_sk_len _ toy_ok). cbn [Nat.eqb PUBLIC_KEY_LEN PRIVATE_KEY_LEN].
    rewrite !(keypair_layout _ toy_ok). intros [= <-] [= <-] [= <-] [= <-].
    exists (map2 bxor (pad_to 32 (fst (cs_keypair toy_cs s1))) (pad_to 32 (fst (cs_keypair toy_cs s2)))). split; [reflexivity|]. f_equal.
    assert (C : forall a b, map2 bxor a b = map2 bxor b a).
    { induction a as [|x a IH]; intros [|y b]; simpl; auto. now rewrite bxor_comm, IH. }
    apply C.
  - intros a b k [= <-].
    assert (L : forall n (x y : bytes), length x = n -> length y = n -> length (map2 bxor x y) = n).
    { induction n as [|n IH]; intros [|p x] [|q y]; cbn; intros; try discriminate; auto. }
    apply L; apply pad_to_length.
  - intros m n k H1 H2 H3. destruct (box_argsP m k n) as [A|A]; [|exfalso; apply A; repeat split; assumption].
    destruct (cs_box_seal toy_cs m n k) as [c t] eqn:E.
    pose proof (box_len _ toy_ok m n k) as L1. pose proof (box_mac_len _ toy_ok m n k) as L2. pose proof (box_inv _ toy_ok m n k) as L3.
    rewrite E in L1, L2, L3. cbn [fst snd] in L1, L2, L3. split; [exact L1|]. split; [exact L2|].
    rewrite (box_args_len m c k n L1), L2. destruct (box_argsP m k n); [exact L3|contradiction].
  - intros p s H. destruct (kdf_argsP p s); [|contradiction]. eexists. split; [reflexivity|]. apply pad_to_length.
Qed.

(** It is not [lib_ok]; the other theorems do not apply to it directly. *)
Example C64_picky : sodium_ok picky_sodium /\ lib_contract (sodium_lib picky_sodium) /\ ~ lib_ok (sodium_lib picky_sodium).
Proof.
  split; [exact picky_ok|]. split; [apply sodium_contract, picky_ok|].
  intros H. pose proof (hmac_len _ (H ChaCha20Poly1305Ietf _ eq_refl) [] []) as L. vm_compute in L. discriminate L.
Qed.

Lemma contract_of_ok cs : crypto_ok cs -> (forall pk sk k, cs_beforenm cs pk sk = Some k -> length k = 32) -> contract cs.
Proof.
  intros K H. constructor; intros.
  - apply (hash_len _ K). - apply (hmac_len _ K). - apply (kdf_len _ K).
  - split; [apply (aead_len _ K)|apply (aead_mac_len _ K)].
  - apply (aead_inv _ K). - eapply (aead_dec_len _ K); eauto.
  - split; [apply (box_len _ K)|apply (box_mac_len _ K)].
  - apply (box_inv _ K).
  - split; [apply (keypair_pk_len _ K)|]. split; [apply (keypair_sk_len _ K)|apply (keypair_layout _ K)].
  - eauto.
  - apply (agree _ K).
Qed.

(** It agrees with the toy library on admissible arguments. *)
Example C65_case : lib_contract toy_lib /\ lib_contract (sodium_lib picky_sodium) /\ lib_same_within toy_lib (sodium_lib picky_sodium).
Proof.
  split; [|split; [apply sodium_contract, picky_ok|]].
  - intros a cs [= <-]. apply contract_of_ok; [exact toy_ok|]. intros pk sk k [= <-].
    assert (L : forall n (x y : bytes), length x = n -> length y = n -> length (map2 bxor x y) = n).
    { induction n as [|n IH]; intros [|p x] [|q y]; cbn; intros; try discriminate; auto. }
    apply L; apply pad_to_length.
  - intros a. assert (S : same_within toy_cs (sodium_cryptosys picky_sodium a)); [|destruct a; exact S]. constructor; cbn [sodium_cryptosys cs_hash cs_hmac cs_aead_encrypt cs_aead_decrypt cs_keypair cs_beforenm cs_box_seal cs_box_open cs_kdf]; intros.
    + unfold sodium_hash. cbn [so_hash picky_sodium]. symmetry. rewrite firstn_app, (hash_len _ toy_ok m), Nat.sub_diag, app_nil_r. rewrite <- (hash_len _ toy_ok m). apply firstn_all.
    + cbn [so_auth picky_sodium]. now rewrite H.
    + unfold sodium_kdf. cbn [so_pwhash picky_sodium]. destruct (kdf_argsP p s); [|contradiction]. symmetry. apply pad_to_exact. apply (kdf_len _ toy_ok).
    + unfold sodium_aead_encrypt. cbn [so_chacha_encrypt so_aes_encrypt picky_sodium]. unfold picky_encrypt. destruct (aead_argsP m k n); [destruct a; reflexivity|contradiction].
    + unfold sodium_aead_decrypt. cbn [so_chacha_decrypt so_aes_decrypt picky_sodium]. unfold picky_decrypt. rewrite H0. destruct (aead_argsP c k n); [destruct a; reflexivity|contradiction].
    + reflexivity.
    + unfold sodium_beforenm. cbn [so_pk_to_curve25519 so_sk_to_curve25519 so_box_beforenm picky_sodium]. rewrite H, H0. reflexivity.
    + cbn [so_box_afternm picky_sodium]. destruct (box_argsP m k n); [reflexivity|contradiction].
    + cbn [so_box_open_afternm picky_sodium]. rewrite H0. destruct (box_argsP c k n); [reflexivity|contradiction].
Qed.

(** The run of [C22_case] (a 3-of-4 expression), with the library that misbehaves whenever it may. *)
Lemma ex_sized : sized (expression ex_opts) /\ Forall sized ex_D.
Proof.
  split.
  - vm_compute. repeat (first [exact Logic.I|reflexivity|discriminate|split]).
  - repeat constructor; vm_compute; first [reflexivity|discriminate].
Qed.

Example C64_case : exists w', encrypt_stream (sodium_lib picky_sodium) ex_opts ex_random ex_data ex_out (Ok tt) w' /\
  (exists r v', decrypt_stream (sodium_lib picky_sodium) ex_D [RData (w_out w')] ex_out r v') /\
  forall r v', decrypt_stream (sodium_lib picky_sodium) ex_D [RData (w_out w')] ex_out r v' -> r = Ok tt /\ w_out v' = [x61; x62; x63].
Proof.
  destruct C65_case as (C & C' & S). destruct (C65_streams_keep_the_contract _ _ C C' S) as [HE HD].
  destruct ex_sized as [S1 S2]. destruct C22_case as (w' & H1 & (r & v' & H2) & H3).
  exists w'. split; [exact (proj1 (HE ex_opts ex_random ex_data ex_out (Ok tt) w' ex_random_ok S1) H1)|]. split.
  - exists r, v'. exact (proj1 (HD ex_D [RData (w_out w')] ex_out r v' S2) H2).
  - intros r0 v0 H. exact (H3 r0 v0 (proj2 (HD ex_D [RData (w_out w')] ex_out r0 v0 S2) H)).
Qed.

(** A whole run of the program with this library: the one of [PropFs.C28_command_case]. *)
Lemma case_short c u : parse_command_line case_digest case_secrets case_command false false false (w_ui case_start) = (Ok c, u) ->
  short_passwords (command_passwords c).
Proof.
  intros H. pose proof (eq_trans (eq_sym case_parsed) H) as E. injection E as <- _.
  constructor; [unfold password_limit; discriminate|constructor].
Qed.
Example C65_run : exists w',
  main (case_names false false) (sodium_lib picky_sodium) case_digest case_secrets case_command false false false case_start 0 w' /\
  f_entries (w_fs w') (num "notes") = None.
Proof.
  destruct C65_case as (C & C' & S). destruct case_program as (w' & H & _ & D). exists w'. split; [|exact D].
  exact (proj1 (C65_only_the_contract_matters (case_names false false) toy_lib (sodium_lib picky_sodium) case_digest case_secrets case_command
    false false false case_start 0 w' C C' S case_short) H).
Qed.

(** C81: how large encrypted files are.

    Vocabulary (SizeSpec): [digits], [field], [count] sizes of the parts of the format, [key_size] of an encrypted key,
    [header_size] of a header, [aligned] rounding up to a multiple of 8.  [is_conversion lib (DoEncrypt c fast) b f] (FsSpec):
    [f] is a complete result of encrypting [b] for [c]. *)
From Coq.Strings Require Import Byte String.
From Coq Require Import List NArith ZArith Bool Lia PeanoNat.
From Verif Require Import Base BaseFacts Shamir Errors Io HeaderIo HeaderIoSpec HeaderIoProofs Crypto HeaderCrypto CredSpec HeaderCryptoProofs HeaderCryptoProofs2 HeaderCryptoProofs4
  StreamCrypto Pipeline StreamProofs FileCrypto FileProofs Text Util CliErrors KeyFiles Ui Paths Getopts Cli Fs Commands FsSpec FsProofs12
  SizeSpec SizeProofs ToyCrypto PropHeader.
Import ListNotations.
Local Open Scope N_scope.

(** The size of a header depends on the structure of the expression only. *)
Theorem C81_header_size : forall lib opts er ser cod chunk,
  lib_ok lib -> random_ok er -> wf_cred (expression opts) ->
  encrypt_header lib opts er = Ok (ser, cod, chunk) -> lenN ser < 2 ^ 64 ->
  lenN ser = header_size (expression opts).
Proof. intros lib opts er ser cod chunk Hl Hr Hw He Hn. apply (header_sized lib opts er ser cod chunk); auto. Qed.
Print Assumptions C81_header_size.

(** Passwords, symmetric keys and public keys. *)
Definition single (c : cred) : Prop := forall members n t, c <> Complex members n t.

(** The size of an encrypted file: 8 bytes, the header, and 16 bytes for every started chunk of about a megabyte. *)
Theorem C81_file_size : forall lib members n t fast b f,
  lib_ok lib -> wf_cred (Complex members n t) ->
  is_conversion lib (DoEncrypt (Complex members n t) fast) b f ->
  exists chunk, 1044480 <= chunk <= 1052664 /\ chunk mod 8 = 0 /\
    lenN f = 8 + aligned (header_size (Complex members n t)) + lenN b + 16 * N.max 1 ((lenN b + chunk - 1) / chunk).
Proof. exact conversion_sized. Qed.
Print Assumptions C81_file_size.

(** A small file for one recipient of whatever kind grows by 184 bytes. *)
Theorem C81_one_recipient_costs_184_bytes : forall lib c fast b f,
  lib_ok lib -> wf_cred c -> single c ->
  is_conversion lib (DoEncrypt (Complex [(1, c)] 1 1) fast) b f ->
  lenN b <= 1044480 -> lenN f = lenN b + 184.
Proof.
  intros lib c fast b f Hl Hw Hs H Hb.
  destruct (conversion_sized lib _ _ _ _ _ _ Hl (wf_group [(1, c)] 1 1 ltac:(repeat constructor; cbn; lia) ltac:(repeat constructor; exact Hw) eq_refl ltac:(reflexivity)) H)
    as (chunk & Hc & _ & E).
  rewrite E. replace (aligned (header_size (Complex [(1, c)] 1 1))) with 160.
  - assert ((lenN b + chunk - 1) / chunk < 2) by (apply N.div_lt_upper_bound; lia). lia.
  - destruct c; try reflexivity. exfalso. eapply Hs. reflexivity.
Qed.
Print Assumptions C81_one_recipient_costs_184_bytes.

(** Every further recipient costs 52 bytes, up to the rounding and the sizes of sizes. *)
Theorem C81_recipients_cost_52_bytes : forall lib cs t fast er ser cod chunk,
  lib_ok lib -> random_ok er -> (forall c, In c cs -> wf_cred c /\ single c) -> lenN cs < 2 ^ 32 ->
  encrypt_header lib (mkEncryptOptions (map (fun c => (1, c)) cs) (lenN cs) t fast) er = Ok (ser, cod, chunk) ->
  lenN ser = 101 + field (count t + 52 * lenN cs) /\
  52 * lenN cs + 103 <= lenN ser <= 52 * lenN cs + 117.
Proof.
  intros lib cs t fast er ser cod chunk Hl Hr Hcs Hn He. set (opts := mkEncryptOptions _ _ _ _) in He.
  assert (Hw : wf_cred (expression opts)).
  { constructor.
    - apply Forall_forall. intros x I. apply in_map_iff in I as (c & <- & _). cbn. lia.
    - apply Forall_forall. intros x I. apply in_map_iff in I as (c & <- & I). cbn. now apply Hcs.
    - unfold opts; cbn [eo_sub_creds eo_num_shares]; clear. induction cs as [|c cs IH]; [reflexivity|]. cbn [map total_shares fold_right fst].
      fold (total_shares (map (fun c => (1, c)) cs)). rewrite <- IH. unfold lenN. cbn [length]. lia.
    - eapply N.lt_trans; [exact Hn|reflexivity]. }
  assert (Et : t <= lenN cs).
  { destruct (encrypt_header_inv _ _ _ _ _ _ He) as (cs0 & t0 & l & st & _ & _ & K & _). unfold expression in K.
    rewrite encrypt_complex in K. apply bind_ok in K as ([parts r1] & Hsp & _).
    destruct (SplitProofs.split_ok_parts _ _ _ _ _ _ Hsp) as ((A & B & _) & _). exact B. }
  assert (D : forall n, n < 2 ^ 42 -> digits n <= 6).
  { intros n H. unfold digits. assert (N.size n <= 42).
    { destruct (N.eq_dec n 0) as [->|Z]; [cbn; lia|]. rewrite N.size_log2 by exact Z.
      assert (N.log2 n < 42) by (apply N.log2_lt_pow2; [lia|exact H]). lia. }
    assert ((N.size n + 6) / 7 < 7) by (apply N.div_lt_upper_bound; lia). lia. }
  assert (Ez : header_size (expression opts) = 101 + field (count t + 52 * lenN cs)).
  { unfold header_size, expression, opts. cbn [eo_sub_creds eo_num_shares eo_threshold]. rewrite key_size_complex.
    rewrite flat_sum by (intros c I; now apply Hcs). change (field 32) with 34. change (field 61) with 63. lia. }
  change (2 ^ 42) with 4398046511104 in D. change (2 ^ 32) with 4294967296 in Hn.
  assert (Dt : count t <= 6).
  { unfold count. destruct (N.leb_spec t 1); [lia|]. unfold digits. assert (N.size t <= 32).
    { rewrite N.size_log2 by lia. assert (N.log2 t < 32) by (apply N.log2_lt_pow2; [lia|change (2 ^ 32) with 4294967296; lia]). lia. }
    assert ((N.size t + 6) / 7 < 6) by (apply N.div_lt_upper_bound; lia). lia. }
  assert (Df : digits (count t + 52 * lenN cs) <= 6) by (apply D; lia).
  assert (D1 : 1 <= digits (count t + 52 * lenN cs)) by (unfold digits; lia).
  rewrite (header_sized lib opts er ser cod chunk Hl Hr Hw He).
  - rewrite Ez. split; [reflexivity|]. unfold field. lia.
  - right. rewrite Ez. unfold field, two64. lia.
Qed.
Print Assumptions C81_recipients_cost_52_bytes.

(** If the keys can be encrypted, then encryption works for every input if the header is at most 16 megabytes, and for no
    input otherwise. *)
Theorem C81_what_can_be_encrypted : forall lib cs members n t (fast : bool) b,
  lib_ok lib -> wf_cred (Complex members n t) ->
  lib (if fast then AES256GCM else ChaCha20Poly1305Ietf) = Some cs ->
  (forall seed, realisable cs (snd (cs_keypair cs seed)) 32 (Complex members n t)) ->
  (header_size (Complex members n t) <= 16 * 1024 * 1024 -> convertible lib (DoEncrypt (Complex members n t) fast) b) /\
  (16 * 1024 * 1024 < header_size (Complex members n t) -> forall f, ~ is_conversion lib (DoEncrypt (Complex members n t) fast) b f).
Proof.
  intros lib cs members n t fast b Hl Hw Hlib Hre. set (opts := mkEncryptOptions members n t fast).
  assert (K : forall er, random_ok er -> exists ser cod chunk, encrypt_header lib opts er = Ok (ser, cod, chunk)).
  { intros er Hr. destruct (proj2 (encrypt_header_accepts lib opts er Hr Hw)) as ([[ser cod] chunk] & E).
    - exists cs. split; [exact Hlib|exact (Hre (er_seed er))].
    - eauto. }
  split.
  - intros H. apply (convertible_encrypt lib Hl). intros er Hr. destruct (K er Hr) as (ser & cod & chunk & E). exists ser, cod, chunk. split; [exact E|].
    rewrite (header_sized lib opts er ser cod chunk Hl Hr Hw E); [exact H|]. right. eapply N.le_lt_trans; [exact H|reflexivity].
  - intros H f (er & src & room & fl & snk & Hr & _ & _ & C & _). cbn [conversion] in C. fold opts in C. destruct (K er Hr) as (ser & cod & chunk & E).
    destruct (encrypt_stream_ok lib opts er ser cod chunk Hl Hr E _ _ _ C) as (L & _). change MAX_HEADER_LEN with (16 * 1024 * 1024) in L.
    rewrite (header_sized lib opts er ser cod chunk Hl Hr Hw E) in L; [|left; eapply N.le_lt_trans; [exact L|reflexivity]].
    change (header_size (expression opts)) with (header_size (Complex members n t)) in L. lia.
Qed.
Print Assumptions C81_what_can_be_encrypted.

(** The header for [ex_opts], a group in a group, has the size the specification says. *)
Example C81_case : lenN ex_ser = header_size (expression ex_opts) /\ header_size (expression ex_opts) = 354.
Proof.
  split; [|vm_compute; reflexivity].
  apply (C81_header_size toy_lib ex_opts ex_random ex_ser ex_codec 1044520 toy_lib_ok ex_random_ok ex_wf ex_encrypts). vm_compute. reflexivity.
Qed.
(** For 322000 passwords the header fits, for 323000 it does not. *)
Example C81_limit_case : 101 + field (0 + 52 * 322000) <= 16 * 1024 * 1024 /\ 16 * 1024 * 1024 < 101 + field (0 + 52 * 323000).
Proof. vm_compute. split; [discriminate|reflexivity]. Qed.

(** The encrypted form of 3 bytes for one password has 187 bytes. *)
Example C81_small_case : exists f, is_conversion toy_lib (DoEncrypt (Complex [(1, Password [x70])] 1 1) true) [x61; x62; x63] f /\ lenN f = 187.
Proof.
  set (opts := mkEncryptOptions [(1, Password [x70])] 1 1 true).
  assert (Hw : wf_cred (expression opts)) by (constructor; [repeat constructor; cbn; lia|repeat constructor|reflexivity|reflexivity]).
  assert (E : exists ser cod chunk, encrypt_header toy_lib opts ex_random = Ok (ser, cod, chunk)).
  { destruct (proj2 (encrypt_header_accepts toy_lib opts ex_random ex_random_ok Hw)) as ([[ser cod] chunk] & E); [|exists ser, cod, chunk; exact E].
    exists toy_cs. split; [reflexivity|]. cbn. repeat split; try lia. }
  destruct E as (ser & cod & chunk & E).
  assert (L : lenN ser <= MAX_HEADER_LEN).
  { rewrite (header_sized toy_lib opts ex_random ser cod chunk toy_lib_ok ex_random_ok Hw E); [vm_compute; discriminate|right; vm_compute; reflexivity]. }
  destruct (encrypt_stream_works toy_lib opts ex_random ser cod chunk toy_lib_ok ex_random_ok E [RData [x61; x62]; RData [x63]] (mkSink [] None true false) L eq_refl eq_refl eq_refl) as (w' & H).
  assert (C : is_conversion toy_lib (DoEncrypt (Complex [(1, Password [x70])] 1 1) true) [x61; x62; x63] (w_out w')).
  { exists ex_random, [RData [x61; x62]; RData [x63]], None, true, w'. split; [exact ex_random_ok|]. split; [reflexivity|]. split; [reflexivity|]. split; [exact H|reflexivity]. }
  exists (w_out w'). split; [exact C|].
  rewrite (C81_one_recipient_costs_184_bytes toy_lib (Password [x70]) true [x61; x62; x63] (w_out w') toy_lib_ok (wf_password _) ltac:(discriminate) C); [reflexivity|vm_compute; discriminate].
Qed.

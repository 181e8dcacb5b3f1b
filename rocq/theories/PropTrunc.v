(** C93: key files that end too early are not taken for other keys.

    Vocabulary: [reads_keys] are the ways to read a line of a file with symmetric, public or private keys;
    [read_file_lines] reads a file with one of them (KeyFiles); [accepted] and [accepted_only] say what a file of a file
    system is taken for (TruncSpec); otherwise as in PropPair. *)
From Coq.Strings Require Import Byte String.
From Coq Require Import List NArith ZArith Bool PeanoNat Lia.
From Verif Require Import Base BaseFacts Shamir Errors Io StreamSpec Text Util CliErrors Getopts Crypto HeaderCrypto CredSpec KeyFiles Ui UiSpec Paths PathSpec CliCreds Cli CliSpec OptSpec CmdSpec
  Fs Commands FsSpec FsProofs FlowSpec ForceSpec PairSpec TruncSpec TruncProofs PropKeys PropPair.
From Verif Require Import Proto ToyCrypto FsCases FsCases2 PairCases.
Import ListNotations.
Local Open Scope N_scope.

(** If the beginning of a file with keys is accepted, it is as the first keys of the file. *)
Theorem C93_truncated_key_files_give_the_first_keys : forall sha512 f whole part creds creds', reads_keys sha512 f -> prefix_of part whole ->
  read_file_lines (Some whole) f = Ok creds -> read_file_lines (Some part) f = Ok creds' -> creds' <> [] /\ starts creds' creds.
Proof.
  intros sha512 f whole part creds creds' K [r ->] H H'. split; [|exact (truncated _ _ _ _ _ (keys_stable _ _ K) H H')].
  destruct (read_inv _ _ _ H') as (_ & _ & _ & _ & _ & N). exact N.
Qed.
Print Assumptions C93_truncated_key_files_give_the_first_keys.

(** So a part of a generated file is accepted as the generated key only. *)
Theorem C93_parts_of_generated_files : forall sha512 pk sk public private, (forall b, sha512 b <> []) -> length pk = 32%nat -> length sk = 64%nat ->
  key_pair_texts sha512 pk sk = Ok (public, private) -> forall skip out creds,
  (prefix_of out (utf8 public) -> read_file_lines (Some out) (public_key_line sha512 skip) = Ok creds -> creds = [PublicKey pk]) /\
  (prefix_of out (utf8 private) -> read_file_lines (Some out) (private_key_line sha512 skip) = Ok creds -> creds = [PrivateKey sk]).
Proof.
  intros sha512 pk sk public private Hs Lp Ls Tx skip out creds.
  assert (Ep : skipn 32 sk = pk).
  { unfold key_pair_texts in Tx. destruct (bytes_eqb pk (skipn 32 sk)) eqn:E; [|discriminate Tx]. apply bytes_eqb_eq in E. auto. }
  destruct (C41_generated_key_files_read_back sha512 skip [(pk, sk)] Hs) as (texts & M & A & B & _).
  - discriminate.
  - intros pk' sk' [[= <- <-]|[]]. auto.
  - cbn [map_out fst snd] in M. rewrite Tx in M. cbn [bind] in M. injection M as <-. cbn [map fst snd concat] in A, B. rewrite app_nil_r in A, B.
    assert (K : forall c : cred, creds <> [] /\ starts creds [c] -> creds = [c]).
    { intros c [N [r E]]. destruct creds as [|x [|y l]]; [contradiction N; reflexivity|injection E as -> _; reflexivity|discriminate E]. }
    split; intros P R; apply K.
    + eapply (C93_truncated_key_files_give_the_first_keys sha512 (public_key_line sha512 skip)); [right; eauto|exact P|exact A|exact R].
    + eapply (C93_truncated_key_files_give_the_first_keys sha512 (private_key_line sha512 skip)); [right; eauto|exact P|exact B|exact R].
Qed.
Print Assumptions C93_parts_of_generated_files.

(** And whatever interrupts or disturbs the generation of keys: what has become of the public file is accepted as a new
    public key only, and what has become of the private file as the private key that belongs to it, and only if that
    public key is accepted from the other file. *)
Theorem C93_interrupted_generation : forall entry_of lib sha512 files args occs free tin tout terr w status w' g a d n n',
  lib_ok lib -> (forall b, sha512 b <> []) -> wf_fs (w_fs w) -> w_past w = [] -> means 0 args occs free -> asks_for_keys occs -> unambiguous_keys entry_of (w_fs w) free ->
  main entry_of lib sha512 files args tin tout terr w status w' -> In g (moments w') ->
  In a free -> a <> lit "-" -> is_file (components a) d n -> public_name n n' ->
  let p := d ++ [Normal n'] in let q := components a in
  (forall x t, x = p \/ x = q -> entry_of x = Some t -> intact (w_fs w) g t) \/
  exists cs seed pk sk, lib ChaCha20Poly1305Ietf = Some cs /\ cs_keypair cs seed = (pk, sk) /\ forall skip,
    accepted_only entry_of g p (public_key_line sha512 skip) (PublicKey pk) /\
    ((forall u, entry_of q = Some u -> intact (w_fs w) g u) \/
     (accepted entry_of g p (public_key_line sha512 skip) (PublicKey pk) /\ accepted_only entry_of g q (private_key_line sha512 skip) (PrivateKey sk))).
Proof.
  intros entry_of lib sha512 files args occs free tin tout terr w status w' g a d n n' Hl Hs W Pw R As U H Ig Ia Na Fn Pn p q.
  destruct (C92_pairs_at_every_moment _ _ _ _ _ _ _ _ _ _ _ _ _ _ _ _ _ _ W Pw R As U H Ig Ia Na Fn Pn) as [K|(public & private & t & (cs & seed & El & Tx) & Et & K)]; [left; exact K|right].
  destruct (cs_keypair cs seed) as [pk sk] eqn:Ek. cbn [fst snd] in Tx. exists cs, seed, pk, sk. split; [exact El|]. split; [exact Ek|]. intros skip.
  assert (Lp : length pk = 32%nat) by (pose proof (keypair_pk_len _ (Hl _ _ El) seed) as X; rewrite Ek in X; exact X).
  assert (Ls : length sk = 64%nat) by (pose proof (keypair_sk_len _ (Hl _ _ El) seed) as X; rewrite Ek in X; exact X).
  fold p in Et. fold q in K.
  assert (Only : forall out, prefix_of out (utf8 public) -> plain_file g t out -> accepted_only entry_of g p (public_key_line sha512 skip) (PublicKey pk)).
  { intros out P F t' b creds Et' F' Rd. assert (t' = t) as -> by congruence. rewrite (plain_unique _ _ _ _ F' F) in Rd. exact (proj1 (C93_parts_of_generated_files _ _ _ _ _ Hs Lp Ls Tx skip out creds) P Rd). }
  destruct K as [(out & P & F & I)|(F & u & out & Eu & P & G)].
  - split; [exact (Only out P F)|left; exact I].
  - split; [apply (Only (utf8 public)); [exists []; rewrite app_nil_r; reflexivity|exact F]|]. right. split.
    + exists t, (utf8 public). split; [exact Et|]. split; [exact F|]. destruct (C41_generated_key_files_read_back sha512 skip [(pk, sk)] Hs) as (texts & M & A & _).
      * discriminate.
      * intros pk' sk' [[= <- <-]|[]]. split; [exact Lp|]. split; [exact Ls|]. unfold key_pair_texts in Tx. destruct (bytes_eqb pk (skipn 32 sk)) eqn:E; [|discriminate Tx]. apply bytes_eqb_eq in E. auto.
      * cbn [map_out fst snd] in M. rewrite Tx in M. cbn [bind] in M. injection M as <-. cbn [map fst snd concat] in A. rewrite app_nil_r in A. exact A.
    + intros u' b creds Eu' G' Rd. assert (u' = u) as -> by congruence. rewrite (plain_unique _ _ _ _ G' G) in Rd. exact (proj2 (C93_parts_of_generated_files _ _ _ _ _ Hs Lp Ls Tx skip out creds) P Rd).
Qed.
Print Assumptions C93_interrupted_generation.

(** Two public keys; the file without its last character, and the file up to the first line, which loses a recipient;
    and a cut in the second line. *)
Example C93_case : let whole := utf8 (fst old_pair ++ case_public) in let f := public_key_line case_digest false in
  reads_keys case_digest f /\ read_file_lines (Some whole) f = Ok [PublicKey (toy_pk [x6f]); PublicKey (toy_pk [])] /\
  prefix_of (firstn 129 whole) whole /\ read_file_lines (Some (firstn 129 whole)) f = Ok [PublicKey (toy_pk [x6f]); PublicKey (toy_pk [])] /\
  prefix_of (firstn 65 whole) whole /\ read_file_lines (Some (firstn 65 whole)) f = Ok [PublicKey (toy_pk [x6f])] /\
  prefix_of (firstn 100 whole) whole /\ read_file_lines (Some (firstn 100 whole)) f = Err (CHex InvalidLength).
Proof.
  intros whole f. assert (P : forall k, prefix_of (firstn k whole) whole) by (intros k; exists (skipn k whole); symmetry; apply firstn_skipn).
  split; [right; exists false; left; reflexivity|]. split; [vm_compute; reflexivity|]. split; [apply P|]. split; [vm_compute; reflexivity|]. split; [apply P|]. split; [vm_compute; reflexivity|].
  split; [apply P|]. vm_compute. reflexivity.
Qed.
(** The hypotheses about the library and the hash function are met by the run of [C92_case]. *)
Example C93_run_case : lib_ok toy_lib /\ (forall b, case_digest b <> []) /\ length (toy_pk []) = 32%nat /\ length (toy_sk []) = 64%nat /\
  key_pair_texts case_digest (toy_pk []) (toy_sk []) = Ok (case_public, case_private).
Proof. split; [exact toy_lib_ok|]. split; [discriminate|]. split; [vm_compute; reflexivity|]. split; [vm_compute; reflexivity|]. exact (proj1 case_key_texts). Qed.

(** Passwords have no such protection: a part of a password is a password. *)
Theorem C93_truncated_password_files_refuted : exists whole part creds creds', prefix_of part whole /\
  read_file_lines (Some whole) password_line = Ok creds /\ read_file_lines (Some part) password_line = Ok creds' /\ ~ starts creds' creds.
Proof.
  exists [x61; x62], [x61], [Password [x61; x62]], [Password [x61]]. split; [exists [x62]; reflexivity|]. split; [vm_compute; reflexivity|]. split; [vm_compute; reflexivity|].
  intros [r E]. discriminate E.
Qed.
Print Assumptions C93_truncated_password_files_refuted.

(** The first half of a private key, with its checksum, is accepted as a public key; nobody has a private key for it. *)
Theorem C93_parts_of_private_keys_are_no_public_keys_refuted : exists sha512 pk sk public private part, (forall b, sha512 b <> []) /\ length pk = 32%nat /\ length sk = 64%nat /\
  key_pair_texts sha512 pk sk = Ok (public, private) /\ prefix_of part (utf8 private) /\
  read_file_lines (Some part) (public_key_line sha512 false) = Ok [PublicKey (firstn 32 sk)] /\ firstn 32 sk <> pk.
Proof.
  exists case_digest, (toy_pk [x6f]), (toy_sk [x6f]), (fst old_pair), (snd old_pair), (firstn 64 (utf8 (snd old_pair))). split; [discriminate|]. split; [vm_compute; reflexivity|]. split; [vm_compute; reflexivity|].
  split; [vm_compute; reflexivity|]. split; [exists (skipn 64 (utf8 (snd old_pair))); symmetry; apply firstn_skipn|]. split; [vm_compute; reflexivity|]. vm_compute. discriminate.
Qed.
Print Assumptions C93_parts_of_private_keys_are_no_public_keys_refuted.

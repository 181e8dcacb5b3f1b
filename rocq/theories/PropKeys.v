(** C40, C41, C43, C45: hexadecimal keys, key files, human readable numbers. *)
From Coq.Strings Require Import Byte String.
From Coq Require Import List NArith Bool Lia PeanoNat.
From Verif Require Import Base BaseFacts Text TextProofs Util UtilSpec UtilProofs UtilProofs2 CliErrors Crypto HeaderCrypto
  KeyFiles KeyProofs.
Import ListNotations.
Local Open Scope N_scope.

(** C40: a text is accepted as the key [b] exactly if it is the checksummed text of [b], apart from
    white space between bytes.  SHA-512 is any function with a non-empty result. *)
Theorem C40_accepts_exactly_the_checksummed_text (sha512 : bytes -> bytes) t b :
  sha512 b <> [] ->
  try_parse_hex_string_checksummed sha512 t = Ok b <-> spaced (checksummed_text (sha512 b) b) t.
Proof. apply checksummed_exact. Qed.
Print Assumptions C40_accepts_exactly_the_checksummed_text.

(** What is printed for a key is that text, so it can be read back. *)
Theorem C40_printed_keys_read_back (sha512 : bytes -> bytes) b :
  sha512 b <> [] ->
  to_hex_string_checksummed sha512 b = checksummed_text (sha512 b) b /\
  try_parse_hex_string_checksummed sha512 (to_hex_string_checksummed sha512 b) = Ok b.
Proof.
  intros N. pose proof (checksummed_model sha512 b N) as E. split; [exact E|].
  rewrite E. apply checksummed_exact; [exact N|]. eapply hex_of_spaced, checksummed_spells.
Qed.
Print Assumptions C40_printed_keys_read_back.

(** Changing the case of any letters of an accepted text makes it refused. *)
Theorem C40_altered_letter_case_is_refused (sha512 : bytes -> bytes) t t' b :
  try_parse_hex_string_checksummed sha512 t = Ok b ->
  map ascii_lower t' = map ascii_lower t -> t' <> t ->
  try_parse_hex_string_checksummed sha512 t' = Err (InvalidChecksum b).
Proof. apply altered_case. Qed.
Print Assumptions C40_altered_letter_case_is_refused.

(** Without the checksum, a text is accepted exactly if it spells the key in any letter case. *)
Theorem C40_unchecked_parsing t b :
  try_parse_hex_string t = Ok b <-> exists a, spaced a t /\ hex_of a b.
Proof. split; [apply parse_sound|]. intros (a & S & H). exact (parse_complete a t b S H). Qed.
Print Assumptions C40_unchecked_parsing.

(** C41: the files written for any generated key pairs, one after the other, read back as exactly these
    keys, and the last 64 characters of a private key line are the public key line. *)
Theorem C41_generated_key_files_read_back (sha512 : bytes -> bytes) skip_checksum (pairs : list (bytes * bytes)) :
  (forall b, sha512 b <> []) -> pairs <> [] ->
  (forall pk sk, In (pk, sk) pairs -> length pk = 32%nat /\ length sk = 64%nat /\ skipn 32 sk = pk) ->
  exists texts,
    map_out (fun p => key_pair_texts sha512 (fst p) (snd p)) pairs = Ok texts /\
    read_file_lines (Some (utf8 (concat (map fst texts)))) (public_key_line sha512 skip_checksum)
      = Ok (map (fun p => PublicKey (fst p)) pairs) /\
    read_file_lines (Some (utf8 (concat (map snd texts)))) (private_key_line sha512 skip_checksum)
      = Ok (map (fun p => PrivateKey (snd p)) pairs) /\
    forall pub priv, In (pub, priv) texts -> exists first line,
      length first = 64%nat /\ length line = 64%nat /\ pub = line ++ [10] /\ priv = first ++ line ++ [10].
Proof.
  intros Hs N P.
  set (g := fun p : bytes * bytes => to_hex_string_checksummed sha512 (fst p)).
  set (x := fun p : bytes * bytes => to_hex_string_checksummed sha512 (firstn 32 (snd p))).
  exists (map (fun p => (g p ++ [10], x p ++ g p ++ [10])) pairs).
  assert (forall p, In p pairs -> length (fst p) = 32%nat /\ length (firstn 32 (snd p)) = 32%nat /\
            snd p = firstn 32 (snd p) ++ fst p) as Q.
  { intros [pk sk] I. destruct (P pk sk I) as (L1 & L2 & E). cbn [fst snd]. split; [exact L1|].
    split; [rewrite firstn_length; lia|]. rewrite <- E. symmetry. apply firstn_skipn. }
  assert (forall p, hex_of (g p) (fst p)) as Hg by (intros p; apply written_spells, Hs).
  assert (forall p, hex_of (x p) (firstn 32 (snd p))) as Hx by (intros p; apply written_spells, Hs).
  split; [|split; [|split]].
  - rewrite <- (map_id pairs) at 1. revert Q. clear. induction pairs as [|p l IH]; intros Q; [reflexivity|].
    cbn [map map_out]. unfold key_pair_texts at 1. destruct (Q p (or_introl eq_refl)) as (_ & L & E).
    assert (skipn 32 (snd p) = fst p) as ->.
    { rewrite E at 1. rewrite <- L at 1. apply skipn_app_exact. }
    rewrite bytes_eqb_refl. cbn [assert bind]. rewrite IH; [reflexivity|]. intros y I. apply Q. now right.
  - rewrite map_map. cbn [fst]. apply (read_lines _ g (fun p => PublicKey (fst p))); [exact N| |].
    + intros p I. eapply hex_of_solid; [apply Hg|]. destruct (Q p I) as (L & _). intros E. rewrite E in L. discriminate L.
    + intros p I. unfold public_key_line, g. destruct (Q p I) as (L & _). rewrite read_public by auto. reflexivity.
  - rewrite map_map. cbn [snd].
    rewrite (map_ext (fun p => x p ++ g p ++ [10]) (fun p => (x p ++ g p) ++ [10])) by (intros p; apply app_assoc).
    apply (read_lines _ (fun p => x p ++ g p) (fun p => PrivateKey (snd p))); [exact N| |].
    + intros p I. eapply hex_of_solid; [apply hex_of_app; [apply Hx|apply Hg]|]. destruct (Q p I) as (L & L' & _).
      intros E. apply (f_equal (@List.length _)) in E. rewrite app_length, L, L' in E. discriminate E.
    + intros p I. unfold private_key_line, g, x. destruct (Q p I) as (L & L' & E).
      rewrite read_private by auto. cbn [bind]. now rewrite <- E.
  - intros pub priv I. apply in_map_iff in I as (p & E & I). injection E as <- <-. exists (x p), (g p).
    destruct (Q p I) as (L & L' & _). rewrite (hex_of_length _ _ (Hg p)), (hex_of_length _ _ (Hx p)), L, L'.
    repeat split; reflexivity.
Qed.
Print Assumptions C41_generated_key_files_read_back.

(** C43: durations. *)
Theorem C43_durations_denote_the_seconds t : exists h m s dh dm ds,
  3600 * h + 60 * m + s = t /\ m < 60 /\ s < 60 /\ two_digits ds s /\
  ((h = 0 /\ denotes dm m /\ human_duration t = dm ++ [58] ++ ds) \/
   (0 < h /\ denotes dh h /\ two_digits dm m /\ human_duration t = dh ++ [58] ++ dm ++ [58] ++ ds)).
Proof. apply duration_spec. Qed.
Print Assumptions C43_durations_denote_the_seconds.

(** C43: sizes.  The unit is the largest one not above the value, bytes are exact, otherwise the number
    printed is right up to half a hundredth and the rounding error of f64.  (The number printed may
    still be 1024.00: 1048575 is 1024.00 KiB.) *)
Theorem C43_sizes_denote_the_bytes (up : N -> bool) v : v < two64 -> exists i number,
  (i < 7)%nat /\ @human_file_size cerr up v = Ok (number ++ [32] ++ unit_text i) /\
  ((i = O /\ v < 1024 /\ denotes number v) \/
   ((0 < i)%nat /\ 1024 ^ N.of_nat i <= v < 1024 ^ N.of_nat (S i) /\
    exists whole hundredths dw dh,
      number = dw ++ [46] ++ dh /\ denotes dw whole /\ two_digits dh hundredths /\
      2 ^ 53 * (2 * distance (100 * v) ((100 * whole + hundredths) * 1024 ^ N.of_nat i))
        <= 2 ^ 53 * 1024 ^ N.of_nat i + 200 * v)).
Proof. apply file_size_spec. Qed.
Print Assumptions C43_sizes_denote_the_bytes.

(** C45 is false: a line of 128 bytes with a two byte character in the middle crashes the program,
    with and without the checksum. *)
Theorem C45_malformed_private_keys_are_rejected_refuted (sha512 : bytes -> bytes) skip_checksum :
  exists line, from_hex64_private_key sha512 line skip_checksum = Panic.
Proof.
  exists (repeat 97 63 ++ [233] ++ repeat 97 63).
  apply from_hex64_panic. split; [vm_compute; reflexivity|].
  apply (@split_at_panic cerr). vm_compute. reflexivity.
Qed.
Print Assumptions C45_malformed_private_keys_are_rejected_refuted.

(** That is the only way: a private key line crashes the program exactly if it has 128 bytes besides white
    space and a character extends over byte 64. *)
Theorem C45_only_split_characters_crash (sha512 : bytes -> bytes) line skip_checksum :
  from_hex64_private_key sha512 line skip_checksum = Panic <->
  lenN (utf8 (remove_whitespace line)) = 128 /\
  ~ exists a b, remove_whitespace line = a ++ b /\ lenN (utf8 a) = 64.
Proof. apply from_hex64_panic. Qed.
Print Assumptions C45_only_split_characters_crash.

(** An accepted key has the right length and is what the line spells; all other key files, and private
    key files in ASCII, never crash whatever their content. *)
Theorem C45_other_key_files_never_crash (sha512 : bytes -> bytes) skip_checksum :
  (forall content, read_file_lines content password_line <> Panic) /\
  (forall content, read_file_lines content (symmetric_key_line sha512) <> Panic) /\
  (forall content, read_file_lines content (public_key_line sha512 skip_checksum) <> Panic) /\
  (forall b, Forall (fun x => b2n x < 128) b ->
     read_file_lines (Some b) (private_key_line sha512 skip_checksum) <> Panic).
Proof.
  split; [|split; [|split]].
  - intros c. apply read_file_no_panic. discriminate.
  - intros c. apply read_file_no_panic. intros b t l _ _ _. unfold symmetric_key_line.
    pose proof (from_hex32_no_panic sha512 l true). destruct (from_hex32 sha512 l true); cbn [bind]; congruence.
  - intros c. apply read_file_no_panic. intros b t l _ _ _. unfold public_key_line.
    pose proof (from_hex32_no_panic sha512 l skip_checksum). destruct (from_hex32 sha512 l skip_checksum); cbn [bind]; congruence.
  - intros b. apply private_file_no_panic.
Qed.
Print Assumptions C45_other_key_files_never_crash.

Theorem C45_accepted_keys_have_the_right_length (sha512 : bytes -> bytes) line skip_checksum k :
  (from_hex32 sha512 line skip_checksum = Ok k ->
     length k = 32%nat /\ exists a, spaced a line /\ hex_of a k) /\
  (from_hex64_private_key sha512 line skip_checksum = Ok k ->
     length k = 64%nat /\ hex_of (remove_whitespace line) k).
Proof.
  split.
  - intros H. split; [exact (from_hex32_length _ _ _ _ H)|]. unfold from_hex32 in H.
    apply bind_ok in H as (b & Hb & H). destruct (_ =? _); [|discriminate H]. injection H as <-.
    exact (try_parse_hex_spells _ _ _ _ Hb).
  - apply from_hex64_length.
Qed.
Print Assumptions C45_accepted_keys_have_the_right_length.

(** ** Concrete cases *)

(** A stand-in for SHA-512 with a 64 byte result. *)
Definition toy_hash (b : bytes) : bytes :=
  map (fun i => n2b (73 * N.of_nat i + fold_right (fun x a => b2n x + 3 * a) 5 b)) (seq 0 64).

Definition toy_key : bytes := map (fun i => n2b (41 * N.of_nat i + 10)) (seq 0 64).

(** The key 0xabcdef, and with a space; a changed letter is refused. *)
Example C40_case :
  let b := [xab; xcd; xef] in
  to_hex_string_checksummed toy_hash b = lit "abcDEf" /\
  try_parse_hex_string_checksummed toy_hash (lit " ab cDEf") = Ok b /\
  spaced (checksummed_text (toy_hash b) b) (lit " ab cDEf") /\
  try_parse_hex_string_checksummed toy_hash (lit "abcdEf") = Err (InvalidChecksum b).
Proof.
  assert (try_parse_hex_string_checksummed toy_hash (lit " ab cDEf") = Ok [xab; xcd; xef]) as H by (vm_compute; reflexivity).
  split; [vm_compute; reflexivity|]. split; [exact H|]. split; [|vm_compute; reflexivity].
  apply C40_accepts_exactly_the_checksummed_text; [discriminate|exact H].
Qed.

Example C41_case :
  let pairs := [(skipn 32 toy_key, toy_key); (skipn 32 (rev toy_key), rev toy_key)] in
  (forall pk sk, In (pk, sk) pairs -> length pk = 32%nat /\ length sk = 64%nat /\ skipn 32 sk = pk) /\
  pairs <> [] /\ forall b, toy_hash b <> [].
Proof.
  split; [|split; [discriminate|intros b; discriminate]].
  intros pk sk [E|[E|[]]]; apply (f_equal fst) in E as E1; apply (f_equal snd) in E as E2; cbn [fst snd] in E1, E2;
    rewrite <- E1, <- E2; repeat split; reflexivity.
Qed.

Example C43_case :
  human_duration 3723 = lit "1:02:03" /\ human_duration 59 = lit "0:59" /\
  @human_file_size cerr N.odd 3543 = Ok (lit "3.46 KiB") /\ @human_file_size cerr N.odd 1048575 = Ok (lit "1024.00 KiB") /\
  3543 < two64.
Proof. repeat split; vm_compute; reflexivity. Qed.

(** C78: how much work it is to open a header, whoever made it.  [w_decrypt_header] (Work) is [decrypt_header] written
    as a program that gets at the crypto library only by requests; [stretched], [attempts] and [attempted_bytes]
    (WorkSpec) count in the list of these requests. *)
From Coq.Strings Require Import Byte String.
From Coq Require Import List NArith Bool PeanoNat Lia.
From Verif Require Import Base Shamir Errors HeaderIo Crypto Proto ProtoSpec ProtoProofs HeaderCrypto CredSpec ToyCrypto Work WorkSpec WorkProofs WorkProofs2 WorkProofs3 PropProto PropHeader.
Import ListNotations.

(** The counted program is the program. *)
Theorem C78_what_is_counted : forall lib serialized credentials,
  decrypt_header lib serialized credentials =
  let* (a, key, hash, chunk_size) := run lib (w_decrypt_header (available lib) serialized credentials) in
  match lib a with Some cs => Ok (mkCodec cs key hash false, chunk_size) | None => Panic end.
Proof. exact run_header. Qed.
Print Assumptions C78_what_is_counted.

(** Whatever the header says, no password is stretched more often than it was given; and if the file opens, each
    password was stretched exactly as often as it was given, in the order of the credentials. *)
Theorem C78_passwords_are_stretched_once : forall lib serialized credentials,
  (exists rest, passwords credentials = stretched (requests lib (w_decrypt_header (available lib) serialized credentials)) ++ rest) /\
  forall c, decrypt_header lib serialized credentials = Ok c ->
    stretched (requests lib (w_decrypt_header (available lib) serialized credentials)) = passwords credentials.
Proof. intros lib s D. split; [exact (proj1 (header_requests lib s D))|]. exact (opened_requests lib s D). Qed.
Print Assumptions C78_passwords_are_stretched_once.

(** At most one ciphertext per credential and 20 bytes of header is tried (and the protected header), at most as many
    bytes as there are in the header are tried per credential, and the number of all requests is bounded likewise. *)
Theorem C78_work_is_bounded : forall lib serialized credentials,
  let l := requests lib (w_decrypt_header (available lib) serialized credentials) in
  attempts l <= length credentials * length serialized / 20 + 1 /\
  attempted_bytes l <= max 1 (length credentials) * length serialized /\
  length l <= 2 * length credentials + length credentials * length serialized / 10 + 2.
Proof.
  intros lib s D l. destruct (header_requests lib s D) as (_ & A & B & C). fold l in A, B, C. split; [|split; [exact B|]].
  - destruct (Nat.le_gt_cases (attempts l) 1) as [L|L]; [lia|]. assert (attempts l - 1 <= length D * length s / 20) by (apply Nat.div_le_lower_bound; lia). lia.
  - destruct (Nat.le_gt_cases (length l) (2 * length D + 2)) as [L|L]; [lia|]. assert (length l - 2 * length D - 2 <= length D * length s / 10) by (apply Nat.div_le_lower_bound; lia). lia.
Qed.
Print Assumptions C78_work_is_bounded.

(** What is not a header costs nothing. *)
Theorem C78_no_work_for_garbage : forall lib serialized credentials,
  decode_header serialized = None -> requests lib (w_decrypt_header (available lib) serialized credentials) = [].
Proof. exact unreadable_no_requests. Qed.
Print Assumptions C78_no_work_for_garbage.

(** The depth of the recursion has no such bound: within the limit of 16 MiB groups can be nested hundreds of thousands
    deep (22 bytes per level suffice).  The program recurses on the machine stack, when decoding and when opening. *)
Theorem C78_depth_refuted : forall n : nat, (22 * N.of_nat n + 33 <= 16777216)%N ->
  exists serialized h, (lenN serialized <= 16777216)%N /\ decode_header serialized = Some h /\ n < header_depth h.
Proof.
  intros n L. exists (encode_header (nested n)), (nested n). pose proof (nested_length n) as K.
  assert (K1 : (lenN (encode_header (nested n)) <= 22 * N.of_nat n + 33)%N) by (unfold lenN; lia).
  split; [lia|]. split.
  - apply C15_file_header_round_trips; [|lia]. unfold header_u64, nested. cbn [hd_family hd_ephemeral_pk hd_payload_key hd_protected].
    split; [exact I|]. split; [reflexivity|]. constructor; [|constructor]. split; [reflexivity|]. cbn [snd]. clear. induction n as [|n IH]; cbn; [split; [reflexivity|exact I]|].
    split; [reflexivity|]. split; [reflexivity|]. split; [exact IH|exact I].
  - unfold header_depth, nested. cbn [hd_payload_key depth map fold_right snd]. rewrite nest_depth. lia.
Qed.
Print Assumptions C78_depth_refuted.

(** The file of [C07_case] holds four ciphertexts; it is opened with three credentials, two of them passwords. *)
Example C78_case : stretched (requests toy_lib (w_decrypt_header (available toy_lib) ex_ser ex_D)) = passwords ex_D /\ passwords ex_D <> [] /\
  1 < attempts (requests toy_lib (w_decrypt_header (available toy_lib) ex_ser ex_D)).
Proof.
  split; [exact (proj2 (C78_passwords_are_stretched_once toy_lib ex_ser ex_D) _ C07_case)|]. split; [discriminate|]. apply Nat.ltb_lt. vm_compute. reflexivity.
Qed.
Example C78_depth_case : exists serialized h, (lenN serialized <= 16777216)%N /\ decode_header serialized = Some h /\ N.to_nat 700000 < header_depth h.
Proof. apply C78_depth_refuted. rewrite N2Nat.id. lia. Qed.

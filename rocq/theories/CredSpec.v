(** Specification vocabulary for credentials: which decryption credentials satisfy which credential
    expression.  Nothing here refers to keys, ciphertexts or secret sharing. *)
From Coq Require Import List NArith.
From Coq.Strings Require Import Byte.
From Verif Require Import Base Errors Crypto Proto HeaderCrypto.
Import ListNotations.
Local Open Scope N_scope.

Definition total_shares (l : list (N * cred)) : N := fold_right (fun p n => fst p + n) 0 l.

(** Well-formed credential expressions: what the command line can express (see C36).  [num_shares]
    is the sum of the members' shares, every member has a share, no private keys. *)
Inductive wf_cred : cred -> Prop :=
| wf_password p : wf_cred (Password p)
| wf_symmetric k : wf_cred (SymmetricKey k)
| wf_public k : wf_cred (PublicKey k)
| wf_group subs n t :
    Forall (fun p => 1 <= fst p) subs -> Forall (fun p => wf_cred (snd p)) subs ->
    n = total_shares subs -> n < 2 ^ 64 -> wf_cred (Complex subs n t).

(** [d] is the decryption counterpart of the recipient [c]. *)
Definition matches (cs : cryptosys) (c d : cred) : Prop :=
  match c, d with
  | Password p, Password p' => p = p'
  | SymmetricKey k, SymmetricKey k' => k = k'
  | PublicKey pk, PrivateKey sk => exists seed, cs_keypair cs seed = (pk, sk)
  | _, _ => False
  end.

(** A sub-collection of members. *)
Inductive selection {A} : list A -> list A -> Prop :=
| sel_nil : selection [] []
| sel_take a l k : selection l k -> selection (a :: l) (a :: k)
| sel_skip a l k : selection l k -> selection l (a :: k).

(** The credentials [D] satisfy the expression: a leaf by a matching credential, a group by a
    selection of satisfied members holding threshold many shares. *)
Inductive sat (cs : cryptosys) (D : list cred) : cred -> Prop :=
| sat_leaf c d : In d D -> matches cs c d -> sat cs D c
| sat_group subs n t sel :
    selection sel subs -> Forall (fun p => sat cs D (snd p)) sel -> t <= total_shares sel ->
    sat cs D (Complex subs n t).

(** Credentials that decryption accepts: no public keys and no groups (see C37), private keys
    produced by the key generator. *)
Definition decryption_cred (cs : cryptosys) (d : cred) : Prop :=
  match d with
  | Password _ | SymmetricKey _ => True
  | PrivateKey sk => exists seed, snd (cs_keypair cs seed) = sk
  | PublicKey _ | Complex _ _ _ => False
  end.

(** Recipients of an expression, in order. *)
Fixpoint leaves (c : cred) : list cred :=
  match c with
  | Complex subs _ _ => concat (map (fun p => leaves (snd p)) subs)
  | c => [c]
  end.

(** Encrypted keys of a header's key tree, in order. *)
Fixpoint encrypted_keys (d : kdata) : list bytes :=
  match d with
  | KNone => []
  | KEnc ct => [ct]
  | KComp _ l => concat (map (fun p => encrypted_keys (snd p)) l)
  end.

Definition header_keys (serialized : bytes) : list bytes :=
  match decode_header serialized with
  | Some (mkHeader _ _ (Some (t, l)) _) => encrypted_keys (KComp t l)
  | _ => []
  end.

(** Credential [d] opens the encrypted key [ct] at position [i]. *)
Definition opens (cs : cryptosys) (ephemeral_pk : bytes) (d : cred) (ct : bytes) (i : N) : Prop :=
  exists f m, decryptor_from_credential cs ephemeral_pk d = Ok f /\ f ct i = Ok (Some m).

(** No credential of [D] opens an encrypted key made for a recipient it does not match.  (For a real
    AEAD an exception is a forgery event.) *)
Definition no_accident (cs : cryptosys) (ephemeral_pk : bytes) (D recipients : list cred)
    (cts : list bytes) : Prop :=
  forall i c ct d, nth_error recipients i = Some c -> nth_error cts i = Some ct -> In d D ->
    opens cs ephemeral_pk d ct (N.of_nat i) -> matches cs c d.

(** All cryptosystems a library offers are correct. *)
Definition lib_ok (lib : crypto_lib) : Prop := forall a cs, lib a = Some cs -> crypto_ok cs.

(** The credential expression and the random values of one encryption. *)
Definition expression (opts : encrypt_options) : cred :=
  Complex (eo_sub_creds opts) (eo_num_shares opts) (eo_threshold opts).

(** [gen_range(0, 1024)] and the 32 byte payload key. *)
Definition random_ok (er : enc_random) : Prop := er_chunk er < 1024 /\ length (er_payload_key er) = 32%nat.

(** The same codec, in the decryption direction. *)
Definition for_decryption (c : codec) : codec :=
  mkCodec (co_cs c) (co_key c) (co_header_hash c) false.

(** Same group structure, share counts and thresholds; recipients of any type. *)
Inductive same_shape : cred -> cred -> Prop :=
| shape_leaf c c' :
    (forall s n t, c <> Complex s n t) -> (forall s n t, c' <> Complex s n t) -> same_shape c c'
| shape_group subs subs' n t :
    Forall2 (fun p p' => fst p = fst p' /\ same_shape (snd p) (snd p')) subs subs' ->
    same_shape (Complex subs n t) (Complex subs' n t).

(** What remains of a header when the contents of all byte strings are blanked out. *)
Definition blank (b : bytes) : bytes := repeat x00 (length b).
Fixpoint redact_keys (d : kdata) : kdata :=
  match d with
  | KNone => KNone
  | KEnc ct => KEnc (blank ct)
  | KComp t l => KComp t (map (fun p => (fst p, redact_keys (snd p))) l)
  end.
Definition redact (h : header) : header :=
  mkHeader (hd_family h) (blank (hd_ephemeral_pk h))
    (option_map (fun k => (fst k, map (fun p => (fst p, redact_keys (snd p))) (snd k))) (hd_payload_key h))
    (blank (hd_protected h)).

(** Expressions that encryption can realise for a key of [len] bytes: thresholds between 1 and the
    number of shares, at most 255 shares in proper threshold groups, key material of every group
    below 16 MiB, usable public keys. *)
Fixpoint realisable (cs : cryptosys) (ephemeral_sk : bytes) (len : N) (c : cred) : Prop :=
  match c with
  | Password _ | SymmetricKey _ => True
  | PublicKey pk => cs_beforenm cs pk ephemeral_sk <> None
  | PrivateKey _ => False
  | Complex subs n t =>
      1 <= t /\ t <= n /\ len * n < 16 * 1024 * 1024 /\ (t = 1 \/ t = n \/ n <= 255) /\
      fold_right and True (map (fun p => realisable cs ephemeral_sk (fst p * len) (snd p)) subs)
  end.

(** [subtree d i d' i']: the key tree [d'] occurs in [d]; if the first encrypted key of [d] has
    index [i] then that of [d'] has index [i']. *)
Inductive subtree : kdata -> N -> kdata -> N -> Prop :=
| subtree_self d i : subtree d i d i
| subtree_member t l1 k d l2 i d' i' :
    subtree d ((i + lenN (concat (map (fun p => encrypted_keys (snd p)) l1))) mod 2 ^ 32) d' i' ->
    subtree (KComp t (l1 ++ (k, d) :: l2)) i d' i'.

(** [member_key ds l i k m]: a group with members [l] whose first encrypted key has index [i] has a
    member of [k] shares that the decryptors [ds] open to the key [m]. *)
Inductive member_key (ds : list decryptor) (l : list (N * kdata)) (i : N) : N -> bytes -> Prop :=
| member_key_intro l1 k d l2 m j :
    l = l1 ++ (k, d) :: l2 ->
    decrypt_key_data ds d ((i + lenN (concat (map (fun p => encrypted_keys (snd p)) l1))) mod 2 ^ 32) = Ok (Some m, j) ->
    member_key ds l i (N.max k 1) m.

(** A group in which several shares have an empty key, or in which all parts are required but two
    members have parts of different lengths. *)
Definition malformed_group (ds : list decryptor) (root : kdata) : Prop :=
  exists t l i, subtree root 0 (KComp t l) i /\
    ((exists k, 2 <= k /\ member_key ds l i k []) \/
     (2 <= t /\ exists k1 m1 k2 m2, member_key ds l i k1 m1 /\ member_key ds l i k2 m2 /\ lenN m1 * k2 <> lenN m2 * k1)).

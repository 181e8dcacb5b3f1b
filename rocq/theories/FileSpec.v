(** Specification vocabulary for whole files: nonces spelled out, the encryptions made for a file, and
    what a forgery or a hash collision against a file is. *)
From Coq Require Import List NArith Bool.
From Coq.Strings Require Import Byte.
From Verif Require Import Base Shamir Errors Io Crypto Proto HeaderCrypto StreamSpec AuthSpec.
Import ListNotations.
Local Open Scope N_scope.

(** The bytes of a number, least significant first. *)
Definition le (n : nat) (x : N) : bytes := map (fun k => n2b (x / 256 ^ N.of_nat k)) (seq 0 n).

(** "rypt enc hdr" *)
Definition nonce_of_header : bytes := [x72; x79; x70; x74; x20; x65; x6e; x63; x20; x68; x64; x72].
(** "ryptrecp" and the position of the recipient *)
Definition nonce_of_recipient (i : nat) : bytes :=
  [x72; x79; x70; x74; x72; x65; x63; x70] ++ le 4 (N.of_nat i).
(** "rypt recipient", six zero bytes and the position of the recipient *)
Definition box_nonce_of_recipient (i : nat) : bytes :=
  [x72; x79; x70; x74; x20; x72; x65; x63; x69; x70; x69; x65; x6e; x74; x00; x00; x00; x00; x00; x00] ++ le 4 (N.of_nat i).

(** Recipients reached through a shared secret (password or symmetric key), resp. a public key. *)
Definition by_secret (c : cred) : bool := match c with Password _ | SymmetricKey _ => true | _ => false end.
Definition by_public_key (c : cred) : bool := match c with PublicKey _ => true | _ => false end.
Definition positions (f : cred -> bool) (l : list cred) : list nat :=
  filter (fun i => match nth_error l i with Some c => f c | None => false end) (seq 0 (length l)).

(** Everything encrypted under the payload key of a file with chunk size [c], header hash [h], protected
    part [p] and data [m]. *)
Definition made_for_file (cs : cryptosys) (key h : bytes) (c : nat) (p m : bytes) : list sealed :=
  seal cs key nonce_of_header [] p :: sealed_data cs key h c m.

(** Something in [shown], presented under algorithm [a'], is accepted under [key] though it was not made
    under algorithm [a]. *)
Definition forgery_alg (lib : crypto_lib) (key : bytes) (a : alg) (made : list sealed) (a' : alg) (shown : list sealed) : Prop :=
  exists cs s, lib a' = Some cs /\ In s shown /\ accepted cs key s /\ (a' = a -> ~ In s made).

(** The algorithm an encryption is asked to use. *)
Definition chosen (opts : encrypt_options) : alg := if eo_fast opts then AES256GCM else ChaCha20Poly1305Ietf.

(** The algorithm a header announces. *)
Definition announced (serialized : bytes) : alg :=
  match decode_header serialized with
  | Some (mkHeader (Some 2) _ _ _) => AES256GCM
  | _ => ChaCha20Poly1305Ietf
  end.

(** The hash function of the algorithm [a] maps two different headers to one value. *)
Definition collision (lib : crypto_lib) (a : alg) (x y : bytes) : Prop :=
  exists cs, lib a = Some cs /\ x <> y /\ cs_hash cs x = cs_hash cs y.

(** [ct] is an authenticated encryption, resp. a public-key box, made with this nonce. *)
Definition encrypted_with (cs : cryptosys) (nonce ct : bytes) : Prop :=
  exists key ad m c t, cs_aead_encrypt cs m ad key nonce = (c, t) /\ ct = c ++ t.
Definition boxed_with (cs : cryptosys) (nonce ct : bytes) : Prop :=
  exists key m c t, cs_box_seal cs m nonce key = (c, t) /\ ct = c ++ t.

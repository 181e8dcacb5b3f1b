(** Specification of the files of key pairs while they are generated, with or without force (C92). *)
From Coq.Strings Require Import Byte String.
From Coq Require Import List NArith ZArith Bool.
From Verif Require Import Base Shamir Errors Io Text Util CliErrors Crypto HeaderCrypto KeyFiles Getopts Ui UiSpec Paths PathSpec CliCreds Cli OptSpec CmdSpec Fs Commands FsSpec FlowSpec ForceSpec StreamSpec.
Import ListNotations.
Local Open Scope N_scope.

(** [x] has the name that is due to the public key of the private key [p]. *)
Definition public_of (p x : path) : Prop := exists d n n', is_file p d n /\ public_name n n' /\ is_file x d n'.
(** [x] is the path of a key that is asked for. *)
Definition key_place (free : list text) (x : path) : Prop :=
  exists a, In a free /\ a <> lit "-" /\ (x = components a \/ public_of (components a) x).

(** The files are named without ambiguity: none is named twice; no named file has the name that is due to the public
    key of a named one; the public keys have different names; different names mean different entries of the file
    system; and these have ordinary files or nothing. *)
Record unambiguous_keys (entry_of : names) (f : fs) (free : list text) : Prop := {
  uk_once : forall l1 a l2 b l3, free = l1 ++ a :: l2 ++ b :: l3 -> a <> lit "-" -> components a <> components b;
  uk_names : forall a, In a free -> a <> lit "-" -> exists d n, is_file (components a) d n;
  uk_apart : forall a b, In a free -> In b free -> ~ public_of (components a) (components b);
  uk_public : forall a b x, In a free -> In b free -> public_of (components a) x -> public_of (components b) x -> components a = components b;
  uk_entries : forall x y, key_place free x -> key_place free y -> entry_of x = entry_of y -> entry_of x <> None -> x = y;
  uk_ordinary : forall x e, key_place free x -> entry_of x = Some e -> ordinary f e }.

Section WithEnvironment.
Variable entry_of : names.
Variable lib : crypto_lib.
Variable sha512 : bytes -> bytes.

(** These are the texts of the two files of one pair. *)
Definition texts_of_a_pair (public private : text) : Prop :=
  exists cs seed, lib ChaCha20Poly1305Ietf = Some cs /\
    key_pair_texts sha512 (fst (cs_keypair cs seed)) (snd (cs_keypair cs seed)) = Ok (public, private).

(** How far the files [p] of the public and [q] of the private key have come: both are as they were; a part of the
    public key is there, and the other file is as it was; or the public key is there and a part of the private key that
    belongs to it. *)
Definition stage (f g : fs) (p q : path) : Prop :=
  (forall x t, x = p \/ x = q -> entry_of x = Some t -> intact f g t) \/
  exists public private t, texts_of_a_pair public private /\ entry_of p = Some t /\
    ((exists out, prefix_of out (utf8 public) /\ plain_file g t out /\ forall u, entry_of q = Some u -> intact f g u) \/
     (plain_file g t (utf8 public) /\ exists u out, entry_of q = Some u /\ prefix_of out (utf8 private) /\ plain_file g u out)).
(** Both files are complete and belong together. *)
Definition complete_pair (g : fs) (p q : path) : Prop :=
  exists public private t u, texts_of_a_pair public private /\ entry_of p = Some t /\ plain_file g t (utf8 public) /\ entry_of q = Some u /\ plain_file g u (utf8 private).
End WithEnvironment.

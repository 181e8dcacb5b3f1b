(** Specification of key files that end too early (C93). *)
From Coq.Strings Require Import Byte.
From Coq Require Import List NArith Bool.
From Verif Require Import Base Text Util CliErrors Crypto HeaderCrypto KeyFiles Paths Fs FsSpec FlowSpec.
Import ListNotations.
Local Open Scope N_scope.

(** A prefix of any list. *)
Definition starts {A} (a b : list A) : Prop := exists r, b = a ++ r.

Section WithEnvironment.
Variable entry_of : names.
Variable lib : crypto_lib.
Variable sha512 : bytes -> bytes.

(** The ways in which lines of the three kinds of key files are read. *)
Definition reads_keys (f : text -> outcome cerr cred) : Prop :=
  f = symmetric_key_line sha512 \/ exists skip, f = public_key_line sha512 skip \/ f = private_key_line sha512 skip.

(** What is accepted from the file [x] by [f] is this key. *)
Definition accepted_only (g : fs) (x : path) (f : text -> outcome cerr cred) (c : cred) : Prop :=
  forall t b creds, entry_of x = Some t -> plain_file g t b -> read_file_lines (Some b) f = Ok creds -> creds = [c].
(** The key is accepted from the file. *)
Definition accepted (g : fs) (x : path) (f : text -> outcome cerr cred) (c : cred) : Prop :=
  exists t b, entry_of x = Some t /\ plain_file g t b /\ read_file_lines (Some b) f = Ok [c].
End WithEnvironment.

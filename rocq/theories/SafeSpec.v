(** Specification of command lines that name their files without ambiguity (C91). *)
From Coq.Strings Require Import Byte String.
From Coq Require Import List NArith ZArith Bool.
From Verif Require Import Base Shamir Errors Io Text Util CliErrors Crypto HeaderCrypto Getopts Ui UiSpec Paths PathSpec CliCreds Cli OptSpec CmdSpec Fs Commands FsSpec FlowSpec ForceSpec.
Import ListNotations.
Local Open Scope N_scope.

(** The options ask for this. *)
Definition asks_to (dir : crypt_direction) (occs : list occurrence) : Prop :=
  match dir with Encrypt => asks_to_encrypt occs | Decrypt => asks_to_decrypt occs end.

(** The file [q] has the name that is due to the result of converting the file [p], if the suffix is [s]: encrypted files
    have a dot and the suffix at the end of their names. *)
Definition named_after (dir : crypt_direction) (s : text) (p q : path) : Prop :=
  exists d n, match dir with
    | Encrypt => is_file p d n /\ is_file q d (n ++ lit "." ++ s)
    | Decrypt => is_file p d (n ++ lit "." ++ s) /\ is_file q d n
    end.
(** [x] is the path of a named file or of what it is converted to. *)
Definition place (dir : crypt_direction) (s : text) (free : list text) (x : path) : Prop :=
  exists a, In a free /\ (x = components a \/ named_after dir s (components a) x).

(** The files are named without ambiguity: the suffix is a proper one; no file is named twice; files to be encrypted do
    not end in a dot, and files to be decrypted do not start with two; no named file is to be the result of converting
    another; different names mean different entries of the file system; and these have ordinary files or nothing. *)
Record unambiguous (entry_of : names) (f : fs) (dir : crypt_direction) (s : text) (free : list text) : Prop := {
  un_suffix : s <> [] /\ ~ In 47 s;
  un_once : NoDup (map components free);
  un_names : forall a, In a free -> exists d n, is_file (components a) d n /\
    match dir with Encrypt => ~ ends_in_dot n | Decrypt => ~ starts_with_two_dots n end;
  un_apart : forall a b, In a free -> In b free -> ~ named_after dir s (components a) (components b);
  un_entries : forall x y, place dir s free x -> place dir s free y -> entry_of x = entry_of y -> entry_of x <> None -> x = y;
  un_ordinary : forall x e, place dir s free x -> entry_of x = Some e -> ordinary f e }.

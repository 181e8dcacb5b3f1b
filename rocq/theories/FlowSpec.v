(** Specification of whole workflows (C74): several runs of the program, possibly on different machines, that use each
    other's files. *)
From Coq.Strings Require Import Byte String.
From Coq Require Import List NArith ZArith Bool.
From Verif Require Import Base Shamir Errors Io Text Util CliErrors Crypto HeaderCrypto Getopts Ui UiSpec Paths PathSpec CliCreds Cli OptSpec CmdSpec Fs Commands FsSpec.
Import ListNotations.
Local Open Scope N_scope.

(** The content of the regular file with this path, following symbolic links. *)
Definition content (entry_of : names) (f : fs) (p : path) : option bytes :=
  match entry_of p with
  | Some s =>
      match follow max_links f s with
      | Some t =>
          match f_entries f t with
          | Some (EFile i) =>
              match f_nodes f i with
              | Some n => if n_regular n then Some (n_content n) else None
              | None => None
              end
          | _ => None
          end
      | None => None
      end
  | None => None
  end.
(** What [fs::read_to_string] (cli/credentials.rs:394) finds under a name.  Files of keys and passwords are regular files
    here; others (pipes, devices) are taken to be unreadable. *)
Definition files_in (entry_of : names) (f : fs) (name : text) : option bytes := content entry_of f (components name).

(** A successful run of the program with these arguments, that mean these options and names, on files: without
    [--force], [--stream] and [--suffix]. *)
Definition succeeds (entry_of : names) (lib : crypto_lib) (sha512 : bytes -> bytes) (args : list text) (occs : list occurrence)
    (free : list text) (w w' : world) : Prop :=
  wf_fs (w_fs w) /\ means 0 args occs free /\ ~ given OForce occs /\ ~ given OStream occs /\ ~ given OSuffix occs /\
  exists stdin_is_tty stdout_is_tty stderr_is_tty,
    main entry_of lib sha512 (files_in entry_of (w_fs w)) args stdin_is_tty stdout_is_tty stderr_is_tty w 0 w'.

(** What the options ask for. *)
Definition asks_to_encrypt (occs : list occurrence) : Prop :=
  forall o, given o occs -> ~ In o [ODecrypt; OGenKeypair; OHelp; OVersion].
Definition asks_to_decrypt (occs : list occurrence) : Prop :=
  given ODecrypt occs /\ forall o, given o occs -> ~ In o [OEncrypt; OGenKeypair; OHelp; OVersion].
Definition asks_for_keys (occs : list occurrence) : Prop :=
  given OGenKeypair occs /\ forall o, given o occs -> ~ In o [OEncrypt; ODecrypt; OHelp; OVersion].

(** There is one option about keys, [o] with the value [v]; or none. *)
Definition only_key (o : opt) (v : text) (occs : list occurrence) : Prop :=
  exists a pos b, occs = a ++ mkOcc pos o (Some v) :: b /\ forall x, In x (a ++ b) -> ~ key_option (o_opt x).
Definition no_key (occs : list occurrence) : Prop := forall o, key_option o -> ~ given o occs.

(** All named files are there. *)
Definition all_there (entry_of : names) (f : fs) (free : list text) : Prop :=
  forall a, In a free -> exists s, entry_of (components a) = Some s /\ f_entries f s <> None.
(** The name means a plain file with this content. *)
Definition plain (entry_of : names) (f : fs) (name : text) (b : bytes) : Prop :=
  exists s, entry_of (components name) = Some s /\ plain_file f s b.

(** The user types the password [p], twice if [twice]; after empty lines and passwords that were typed differently the
    second time. *)
Definition types_password (u : ui) (twice : bool) (p : text) : Prop :=
  exists s rs s', u_input u = Some s /\ replies s rs s' /\ accepts twice rs p.

(** Specification of what an accepted command line asks for (C69). *)
From Coq.Strings Require Import Byte String.
From Coq Require Import List NArith ZArith Bool.
From Verif Require Import Base Text Util CliErrors Getopts Crypto HeaderCrypto Ui CliCreds Paths Cli PathSpec OptSpec.
Import ListNotations.
Local Open Scope N_scope.

(** The option is among those given. *)
Definition given (o : opt) (occs : list occurrence) : Prop := exists x, In x occs /\ o_opt x = o.
Definition given_value (o : opt) (v : text) (occs : list occurrence) : Prop := exists x, In x occs /\ o_opt x = o /\ o_val x = Some v.
Definition key_option (o : opt) : Prop :=
  In o [OPassword; OPasswordNamed; OPasswordFile; OPublicKey; OPublicKeyText; OPrivateKey; OSymmetricKey; OKeyThreshold; ORequireAllKeys; OKeyShares; OStartGroup; OEndGroup].

(** The suffix of encrypted files: [rypt], or the one given, of which a dot at the beginning does not count. *)
Definition suffix (occs : list occurrence) (s : text) : Prop :=
  (~ given OSuffix occs /\ s = lit "rypt") \/ given_value OSuffix (lit "." ++ s) occs \/ (given_value OSuffix s occs /\ forall s', s <> lit "." ++ s').

(** What becomes of the originals. *)
Definition originals (occs : list occurrence) (policy : cleanup_policy) : Prop :=
  match policy with
  | KeepFiles => given OKeepInputs occs /\ ~ given ODiscardInputs occs
  | DeleteFiles => given ODiscardInputs occs /\ ~ given OKeepInputs occs
  | PromptUser => ~ given OKeepInputs occs /\ ~ given ODiscardInputs occs
  end.

(** Where data is read and written: with [--stream], or without files, one input is written to standard output;
    otherwise each file to a file. *)
Definition to_stdout (occs : list occurrence) (free : list text) : Prop := given OStream occs \/ free = [] \/ free = [lit "-"].
Definition sources (occs : list occurrence) (free : list text) (streams : list io_stream) : Prop :=
  (to_stdout occs free /\ exists i, streams = [mkStream i (Ok OStdout)] /\
    ((free = [] \/ free = [lit "-"]) /\ i = IStdin \/ exists a, free = [a] /\ a <> lit "-" /\ i = IFileStream (components a))) \/
  (~ to_stdout occs free /\ ~ In (lit "-") free /\
    Forall2 (fun a s => s_input s = IFile (components a) /\ forall q, s_output s = Ok q -> exists p, q = OFile p) free streams).

(** The public key is next to the private key: its name ends in [.pub] instead of its last extension, if it has one. *)
Definition public_name (n q : text) : Prop :=
  (exists b e, b <> [] /\ n = b ++ lit "." ++ e /\ ~ In 46 e /\ q = b ++ lit ".pub") \/ (~ has_inner_dot n /\ q = n ++ lit ".pub").
Definition key_pair (a : text) (k : key_streams) : Prop :=
  (a = lit "-" /\ k = mkKeyStreams None OStdout) \/
  (a <> lit "-" /\ exists q, k = mkKeyStreams (Some q) (OFile (components a)) /\
    forall d n, is_file (components a) d n -> exists n', public_name n n' /\ is_file q d n').

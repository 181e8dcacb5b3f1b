(** Specification of files that are encrypted for the keys in several files, groups of which are needed (C94). *)
From Coq.Strings Require Import Byte.
From Coq Require Import List NArith Bool.
From Verif Require Import Base Text Util CliErrors Crypto HeaderCrypto CredSpec KeyFiles Ui Getopts CliCreds CliSpec OptSpec CmdSpec FlowSpec PipeSpec.
Import ListNotations.
Local Open Scope N_scope.

Section WithEnvironment.
Variable sha512 : bytes -> bytes.
Variable files : text -> option bytes.

(** What one argument adds for encryption: the keys in a file, or a public key written on the command line. *)
Inductive recipients : token -> list cred -> Prop :=
| rc_passwords x b ps : files x = Some b -> file_passwords b ps -> ps <> [] -> recipients (PasswordFile x) (map Password ps)
| rc_symmetric x cs : read_file_lines (files x) (symmetric_key_line sha512) = Ok cs -> recipients (SymmetricKeyFile x) cs
| rc_public x cs : read_file_lines (files x) (public_key_line sha512 false) = Ok cs -> recipients (PublicKeyFile x) cs
| rc_text k c : public_key_line sha512 false k = Ok c -> recipients (PublicKeyText k) [c].

(** What an expression of such arguments asks for: each key in a file has as many shares as are given for the file. *)
Inductive asks_for : expr -> cred -> Prop :=
| af_group th m subs :
    members_ask_for m subs -> subs <> [] -> total_shares subs < 2 ^ 64 -> 1 <= needed th (total_shares subs) <= total_shares subs ->
    asks_for (Group th m) (Complex subs (total_shares subs) (needed th (total_shares subs)))
with members_ask_for : members -> list (N * cred) -> Prop :=
| ma_nil : members_ask_for MNil []
| ma_key n t m cs subs : recipients t cs -> members_ask_for m subs -> members_ask_for (MKey n t m) (map (fun c => (n, c)) cs ++ subs)
| ma_group n e m c subs : asks_for e c -> members_ask_for m subs -> members_ask_for (MGroup n e m) ((n, c) :: subs).

(** The keys of a flat list of arguments. *)
Inductive all_recipients : list token -> list cred -> Prop :=
| ar_nil : all_recipients [] []
| ar_cons t ts cs cs' : recipients t cs -> all_recipients ts cs' -> all_recipients (t :: ts) (cs ++ cs').

(** The keys that are available for decryption. *)
Inductive holds : list token -> list cred -> Prop :=
| hd_nil : holds [] []
| hd_passwords x b ps ts cs : files x = Some b -> file_passwords b ps -> ps <> [] -> holds ts cs -> holds (PasswordFile x :: ts) (map Password ps ++ cs)
| hd_symmetric x ks ts cs : read_file_lines (files x) (symmetric_key_line sha512) = Ok ks -> holds ts cs -> holds (SymmetricKeyFile x :: ts) (ks ++ cs)
| hd_private x ks ts cs : read_file_lines (files x) (private_key_line sha512 false) = Ok ks -> holds ts cs -> holds (PrivateKeyFile x :: ts) (ks ++ cs).
End WithEnvironment.

(** [k] of the recipients [R] are matched by the credentials [D]. *)
Definition matched (cs : cryptosys) (k : N) (R D : list cred) : Prop :=
  exists some, selection some R /\ k <= lenN some /\ forall r, In r some -> exists d, In d D /\ matches cs r d.

(** The same keys, one share each. *)
Fixpoint row (ts : list token) : members := match ts with [] => MNil | t :: ts => MKey 1 t (row ts) end.

(** The options keep the inputs, are not given too often, and include none of these. *)
Definition plain_options (occs : list occurrence) : Prop :=
  given OKeepInputs occs /\ (forall o, only_once o -> (times o occs <= 1)%nat) /\
  forall o, given o occs -> ~ In o [OStream; OSuffix; OForce; OVerbose; OQuiet; ODiscardInputs].

(** Specification of what appears on the terminal (C70). *)
From Coq.Strings Require Import Byte String.
From Coq Require Import List NArith ZArith Bool.
From Verif Require Import Base Text Util CliErrors Getopts UtilSpec Crypto HeaderCrypto Io Ui UiSpec Paths Cli Commands PathSpec OptSpec CmdSpec.
Import ListNotations.
Local Open Scope N_scope.

Section WithLibrary.
Variable sha512 : bytes -> bytes.
Variable lib : crypto_lib.

(** An error message repeats nothing of what was read, but for a single character of a file with keys, and that only
    if it is none that a key consists of. *)
Definition harmless (e : cerr) : Prop := forall ch, e = CHex (InvalidChar ch) -> ~ In ch (lit "0123456789abcdefABCDEF").

(** What may be shown for a command line with the options [occs] and the other arguments [free]. *)
Inductive shown (occs : list occurrence) (free : list text) : message -> Prop :=
| sh_error e : harmless e -> shown occs free (MError e)
| sh_progress : shown occs free MProgress
| sh_blank : shown occs free (MLine [])
(* reading passwords *)
| sh_password : shown occs free (MPrompt (lit "Enter password: "))
| sh_named n : given_value OPasswordNamed n occs -> shown occs free (MPrompt (lit "Enter password (" ++ n ++ lit "): "))
| sh_confirm : shown occs free (MPrompt (lit "Confirm password: "))
| sh_empty : shown occs free (MLine (lit "Password can not be empty, try again."))
| sh_mismatch : shown occs free (MLine (lit "Passwords don't match, try again."))
(* encryption and decryption: the names of the files *)
| sh_streams streams i s b number total : sources occs free streams -> nth_error streams i = Some s ->
    (b = lit "(error)" \/ exists o, s_output s = Ok o /\ b = output_path o) ->
    denotes number (N.of_nat i + 1) -> denotes total (N.of_nat (length streams)) ->
    shown occs free (MLine (input_path (s_input s) ++ lit " -> " ++ b ++ lit " (" ++ number ++ lit "/" ++ total ++ lit ")"))
| sh_remove : shown occs free (MPrompt (lit "Remove original file(s)? [y/N]: "))
| sh_again : shown occs free (MLine (lit "Invalid input, please enter 'y' or 'n'."))
(* making key pairs: the public key and the names of the files *)
| sh_pair number total : (exists i, (i < length free)%nat /\ denotes number (N.of_nat i + 1)) -> denotes total (N.of_nat (length free)) ->
    shown occs free (MLine (lit "Keypair " ++ number ++ lit "/" ++ total ++ lit ":"))
| sh_public cs seed : lib ChaCha20Poly1305Ietf = Some cs ->
    shown occs free (MLine (lit "    Public key: " ++ trim (to_hex_string_checksummed sha512 (fst (cs_keypair cs seed)) ++ [10])))
| sh_public_file a k p : In a free -> key_pair a k -> k_public k = Some p -> shown occs free (MLine (lit "    Public key file: " ++ path_text p))
| sh_private_file a k : In a free -> key_pair a k -> shown occs free (MLine (lit "    Private key file: " ++ output_path (k_private k))).

(** Whatever the user types is not visible, except for the answer to the question about the originals. *)
Definition typed_unseen (tr : list event) : Prop := forall before line after, tr = before ++ Typed line :: after ->
  echo_at_end true before = false \/ exists b, before = b ++ [Printed (MPrompt (lit "Remove original file(s)? [y/N]: "))].
End WithLibrary.

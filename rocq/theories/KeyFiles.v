(** Model of reading and writing keys: cli/credentials.rs:352-403 and commands/gen_keys.rs:31-39. *)
From Coq.Strings Require Import Byte.
From Coq Require Import List NArith Bool.
From Verif Require Import Base Text Util CliErrors Crypto HeaderCrypto.
Import ListNotations.
Local Open Scope N_scope.

Section WithHash.
Variable sha512 : bytes -> bytes.

(** credentials.rs:352-358 *)
Definition try_parse_hex (input : text) (skip_checksum : bool) : outcome cerr bytes :=
  map_err CHex (if skip_checksum then try_parse_hex_string input
                else try_parse_hex_string_checksummed sha512 input).

(** credentials.rs:360-366 *)
Definition from_hex32 (line : text) (skip_checksum : bool) : outcome cerr bytes :=
  let* b := try_parse_hex line skip_checksum in
  if lenN b =? 32 then Ok b else Err CKeyLength.

(** credentials.rs:368-388 (PRIVATE_KEY_LEN = 64, PUBLIC_KEY_LEN = 32, crypto/mod.rs).
    [copy_from_slice] panics unless the lengths agree. *)
Definition from_hex64_private_key (line : text) (skip_checksum : bool) : outcome cerr bytes :=
  let line := remove_whitespace line in
  let* _ := ensure (lenN (utf8 line) =? 128) CPrivateKeyLength in
  let* (private_key_part, public_key_part) := split_at_byte 64 line in
  let* private_key_part := try_parse_hex private_key_part skip_checksum in
  let* public_key_part := try_parse_hex public_key_part skip_checksum in
  let* _ := assert (lenN private_key_part =? 32) in
  let* _ := assert (lenN public_key_part =? 32) in
  Ok (private_key_part ++ public_key_part).

(** credentials.rs:390-403.  The file content comes from [fs::read_to_string]; [None] is an I/O error. *)
Definition read_file_lines {A} (content : option bytes) (line_to_cred_fn : text -> outcome cerr A) : outcome cerr (list A) :=
  let* s := match content with
            | Some b => match from_utf8 b with Valid t => Ok t | _ => Err CIo end
            | None => Err CIo
            end in
  let* credentials := map_out line_to_cred_fn
    (filter (fun l => match l with [] => false | _ => true end) (map trim (lines s))) in
  let* _ := ensure (match credentials with [] => false | _ => true end) CNoKeys in
  Ok credentials.

(** The closures passed to it, credentials.rs:262-264, 268-270, 280-282 and 301-306. *)
Definition password_line (line : text) : outcome cerr cred := Ok (Password (utf8 line)).
Definition symmetric_key_line (line : text) : outcome cerr cred :=
  let* k := from_hex32 line true in Ok (SymmetricKey k).
Definition public_key_line (skip_checksum : bool) (line : text) : outcome cerr cred :=
  let* k := from_hex32 line skip_checksum in Ok (PublicKey k).
Definition private_key_line (skip_checksum : bool) (line : text) : outcome cerr cred :=
  let* k := from_hex64_private_key line skip_checksum in Ok (PrivateKey k).

(** gen_keys.rs:31-39: the texts written for a generated key pair; the assertion is gen_keys.rs:36. *)
Definition key_pair_texts (public_key private_key : bytes) : outcome cerr (text * text) :=
  let real_private_key := firstn 32 private_key in
  let public_part_of_private_key := skipn 32 private_key in
  let* _ := assert (bytes_eqb public_key public_part_of_private_key) in
  let public_text := to_hex_string_checksummed sha512 public_key ++ [10] in
  let private_text := to_hex_string_checksummed sha512 real_private_key ++ public_text in
  Ok (public_text, private_text).

End WithHash.

(** Model of what a conversion tells the progress display: the size of the file (io_streams.rs:27-66, crypt.rs:39-41) and
    how many bytes were processed (crypt.rs:54-58, 61-68).  Commands leaves both open. *)
From Coq.Strings Require Import Byte String.
From Coq Require Import List NArith ZArith Bool.
From Verif Require Import Base Shamir Errors Io HeaderIo Crypto HeaderCrypto StreamCrypto Pipeline FileCrypto CliErrors Text Paths CliCreds Cli Fs Commands Progress.
Import ListNotations.
Local Open Scope N_scope.

(** [Metadata::len] of [fs::symlink_metadata] (io_streams.rs:34): the size of a regular file; of a link, the length of
    the name it has as its target, which the model of Fs leaves out: it is [link_len]; 0 for devices, pipes and sockets. *)
Definition metadata_len (link_len : N -> N) (f : fs) (s : N) : option N :=
  match f_entries f s with
  | Some (EFile i) =>
      match f_nodes f i with
      | Some n => Some (if n_regular n then lenN (n_content n) else 0)
      | None => None
      end
  | Some (ELink _) => Some (link_len s)
  | _ => None
  end.
(** io_streams.rs:52, 57-59, 61-64: the size that is announced; [input_size i f size] if [i] is opened when the file
    system is [f]. *)
Definition input_size (entry_of : names) (link_len : N -> N) (i : input_stream) (f : fs) (size : option N) : Prop :=
  match i with
  | IFile p => exists s len, entry_of p = Some s /\ metadata_len link_len f s = Some len /\ size = Some len
  | IFileStream p => exists s len, entry_of p = Some s /\ metadata_len link_len f s = Some len /\
      size = if 0 <? len then Some len else None
  | IStdin => size = None
  end.

(** [convert_stream] (FileCrypto) at any moment: the result once there is one, and the arguments of the callback so far. *)
Definition convert_stream_so_far (p : pipe) (src : source) (w : sink) (counts : list N) (r : option (outcome err unit)) (w' : sink) : Prop :=
  exists s, steps p (start src w) s /\ s_sink s = w' /\ counts = s_progress s /\
    match r with Some r => s_mn s = MRet r | None => forall r, s_mn s <> MRet r end.

(** crypt.rs:49-53 and 61-68 *)
Definition encrypt_so_far (lib : crypto_lib) (opts : encrypt_options) (er : enc_random)
    (src : source) (w : sink) (counts : list N) (r : option (outcome err unit)) (w' : sink) : Prop :=
  match encrypt_header lib opts er with
  | Ok (file_header, cod, chunk_size) =>
      match write_header w file_header with
      | (Ok _, w1) => convert_stream_so_far (codec_pipe cod (N.to_nat chunk_size)) src w1 counts r w'
      | (Err e, w1) => counts = [] /\ r = Some (Err e) /\ w' = w1
      | (Panic, w1) => counts = [] /\ r = Some Panic /\ w' = w1
      end
  | Err e => counts = [] /\ r = Some (Err e) /\ w' = w
  | Panic => counts = [] /\ r = Some Panic /\ w' = w
  end.
(** crypt.rs:54-58 and 61-68; line 56 reports the size of the header *)
Definition decrypt_so_far (lib : crypto_lib) (credentials : list cred)
    (src : source) (w : sink) (counts : list N) (r : option (outcome err unit)) (w' : sink) : Prop :=
  match read_header src with
  | Ok (file_header, num_bytes_read, src') =>
      match decrypt_header lib file_header credentials with
      | Ok (cod, chunk_size) =>
          exists counts', counts = num_bytes_read :: counts' /\
            convert_stream_so_far (codec_pipe cod (N.to_nat chunk_size)) src' w counts' r w'
      | Err e => counts = [num_bytes_read] /\ r = Some (Err e) /\ w' = w
      | Panic => counts = [num_bytes_read] /\ r = Some Panic /\ w' = w
      end
  | Err e => counts = [] /\ r = Some (Err e) /\ w' = w
  | Panic => counts = [] /\ r = Some Panic /\ w' = w
  end.
(** crypt.rs:46-69; [conversion] of Commands, with the counts *)
Definition conversion_so_far (lib : crypto_lib) (d : direction_opts) (er : enc_random)
    (src : source) (w : sink) (counts : list N) (r : option (outcome err unit)) (w' : sink) : Prop :=
  match d with
  | DoEncrypt (Complex subs n t) fast => encrypt_so_far lib (mkEncryptOptions subs n t fast) er src w counts r w'
  | DoEncrypt _ _ => counts = [] /\ r = Some Panic /\ w' = w
  | DoDecrypt cs => decrypt_so_far lib cs src w counts r w'
  end.

(** The display gets the counts one after the other, at some times (progress.rs:64-81); it is closed at the end. *)
Definition display (start : N) (size : option N) (times counts : list N) (lines : list line) : Prop :=
  length times = length counts /\ report start size (combine times counts) = Ok lines.

(** Specification of repeated attempts, with or without force, at converting the same files (C90). *)
From Coq.Strings Require Import Byte String.
From Coq Require Import List NArith ZArith Bool.
From Verif Require Import Base Shamir Errors Io HeaderIoSpec StreamSpec Text Util CliErrors Getopts Crypto HeaderCrypto CredSpec FileCrypto Ui UiSpec Paths Cli Fs Commands FsSpec.
Import ListNotations.
Local Open Scope N_scope.

(** At the entry there is nothing, or an ordinary file with one name. *)
Definition ordinary (f : fs) (s : N) : Prop := f_entries f s = None \/ exists b, plain_file f s b.

Section WithEnvironment.
Variable entry_of : names.
Variable lib : crypto_lib.

(** The stream converts a file to a file, and where it reads and writes, if that is anywhere, there are ordinary files or
    nothing. *)
Definition in_order (f : fs) (st : io_stream) : Prop :=
  (exists p, s_input st = IFile p) /\ s_output st <> Ok OStdout /\
  forall p s q t, s_input st = IFile p -> entry_of p = Some s -> s_output st = Ok (OFile q) -> entry_of q = Some t -> ordinary f s /\ ordinary f t.
(** The stream converts an ordinary file, and where its output goes there is an ordinary file or nothing. *)
Definition ready_over (d : direction_opts) (f : fs) (st : io_stream) : Prop :=
  exists p s b q t, s_input st = IFile p /\ entry_of p = Some s /\ plain_file f s b /\ convertible lib d b /\
    s_output st = Ok (OFile q) /\ entry_of q = Some t /\ ordinary f t.
(** [s] is the entry of an output. *)
Definition is_output (streams : list io_stream) (s : N) : Prop :=
  exists st q, In st streams /\ s_output st = Ok (OFile q) /\ entry_of q = Some s.
(** Some of the streams convert the file at [s], whose content is [b], and the conversion is there. *)
Definition has_been_converted (streams : list io_stream) (d : direction_opts) (s : N) (b : bytes) (g : fs) : Prop :=
  exists st q, In st streams /\ converts entry_of st s q /\ has_conversion entry_of lib d b g q.

(** The states after any number of attempts at converting some of the files, each with or without force and with or
    without removal of the originals, and each ended or stopped at any moment. *)
Inductive attempts (streams : list io_stream) (d : direction_opts) (f : fs) : fs -> Prop :=
| a_start : attempts streams d f f
| a_run l policy (force : bool) w r w' g : attempts streams d f (w_fs w) -> w_past w = [] -> incl l streams -> distinct_outputs entry_of l ->
    crypt_streams entry_of lib l policy force d w r w' -> In g (moments w') -> attempts streams d f g.
End WithEnvironment.

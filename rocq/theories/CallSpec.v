(** Specification of the calls that commands make (C66, C67): which calls must have come before, with which answers. *)
From Coq.Strings Require Import Byte String.
From Coq Require Import List NArith ZArith Bool.
From Verif Require Import Base Shamir Errors Io Text Util CliErrors Crypto HeaderCrypto HeaderIoSpec StreamSpec KeyFiles Ui UiSpec Paths Cli Fs Commands FsSpec Calls.
Import ListNotations.
Local Open Scope N_scope.

(** In the run [h], [e] comes after [before]. *)
Definition happens (h before : list syscall) (e : syscall) : Prop := exists after, h = before ++ e :: after.

(** These calls open the input as [rd]: what is opened under its name is not a directory and, without force, a
    regular file with this one name. *)
Inductive opens (force : bool) : input_stream -> reader -> list syscall -> Prop :=
| op_file p rd md : m_type md <> FDirectory -> (force = false -> m_type md = FRegular /\ m_nlink md = 1) ->
    opens force (IFile p) rd [SOpenRead p (Ok rd); SStat p (Ok md)]
| op_stream p rd md : m_type md <> FDirectory -> opens force (IFileStream p) rd [SOpenRead p (Ok rd); SStat p (Ok md)]
| op_stdin s : opens force IStdin (ReadStdin s) [STakeStdin s].
(** These calls open the output as [wr]: a new file, unless forced. *)
Inductive creates (force : bool) : output_stream -> writer -> list syscall -> Prop :=
| cr_new q wr : force = false -> creates force (OFile q) wr [SCreateNew q (Ok wr)]
| cr_truncated q wr : force = true -> creates force (OFile q) wr [SCreateOrTruncate q (Ok wr)]
| cr_stdout : creates force OStdout WriteStdout [].
(** The last calls opened this stream. *)
Definition ready_to_convert (force : bool) (st : io_stream) (o : output_stream) (rd : reader) (wr : writer) (h : list syscall) : Prop :=
  s_output st = Ok o /\ exists h0 h1 h2, opens force (s_input st) rd h1 /\ creates force o wr h2 /\ h = h0 ++ h1 ++ h2.

(** The last calls opened the input of a stream with output [q]. *)
Definition input_opened (streams : list io_stream) (force : bool) (q : path) (h : list syscall) : Prop :=
  exists st rd h0 h1, In st streams /\ s_output st = Ok (OFile q) /\ opens force (s_input st) rd h1 /\ h = h0 ++ h1.

Section WithLibrary.
Variable lib : crypto_lib.

(** [q] was the output of a stream whose conversion has just failed, having been reported. *)
Definition has_failed (streams : list io_stream) (force : bool) (d : direction_opts) (q : path) (h : list syscall) : Prop :=
  exists st rd wr src out e new h0, In st streams /\ ready_to_convert force st (OFile q) rd wr h0 /\
    h = h0 ++ [SConvert d rd wr src out (Some (Err e)); SUi new].
(** [p] was the input of a stream that was converted completely, and since then the output was not removed, unless as
    another input or, having been created anew, as the output of another stream. *)
Definition was_converted (streams : list io_stream) (force : bool) (d : direction_opts) (p : path) (h : list syscall) : Prop :=
  exists st o rd wr src out h0 h1, In st streams /\ s_input st = IFile p /\ ready_to_convert force st o rd wr h0 /\
    ends_in_error src = false /\ is_conversion lib d (flat src) out /\
    h = h0 ++ SConvert d rd wr src out (Some (Ok tt)) :: h1 /\
    forall q x, o = OFile q -> In (SRemove q x) h1 ->
      (exists st', In st' streams /\ s_input st' = IFile q) \/
      exists wr', In (SCreateNew q (Ok wr')) h1 \/ In (SCreateOrTruncate q (Ok wr')) h1.
End WithLibrary.

(** All files removed so far were outputs of failed conversions. *)
Definition originals_there (streams : list io_stream) (force : bool) (d : direction_opts) (h : list syscall) : Prop :=
  forall b p x, happens h b (SRemove p x) -> has_failed streams force d p b.

(** The user has asked for the removal of the originals: by an option, or by the answer to the question. *)
Definition removal_requested (policy : cleanup_policy) (h : list syscall) : Prop :=
  policy = DeleteFiles \/
  (policy = PromptUser /\ exists new before reply after, In (SUi new) h /\
     new = before ++ Printed (MPrompt (lit "Remove original file(s)? [y/N]: ")) :: Typed reply :: after /\ In reply yes_words).

(** The file is one that the command writes. *)
Definition output_of (c : command) (q : path) : Prop :=
  match c with
  | CryptStreams streams _ _ _ => exists st, In st streams /\ s_output st = Ok (OFile q)
  | GenerateKeyPair streams _ => exists ks, In ks streams /\ (k_public ks = Some q \/ k_private ks = OFile q)
  | Help | Version => False
  end.

(** ** Generating key pairs *)

(** The calls without what happens at the terminal. *)
Definition silent (h : list syscall) : list syscall := filter (fun e => match e with SUi _ => false | _ => true end) h.
(** The first calls for a key pair: it is made, and its public half is written completely if it has a file. *)
Inductive public_part (sha512 : bytes -> bytes) (force : bool) (ks : key_streams) (public_text private_text : text) : list syscall -> Prop :=
| pub_none pk sk : k_public ks = None -> key_pair_texts sha512 pk sk = Ok (public_text, private_text) ->
    public_part sha512 force ks public_text private_text [SKeypair (pk, sk)]
| pub_file pk sk p wr h : k_public ks = Some p -> key_pair_texts sha512 pk sk = Ok (public_text, private_text) -> creates force (OFile p) wr h ->
    public_part sha512 force ks public_text private_text (SKeypair (pk, sk) :: h ++ [SWriteText wr public_text (utf8 public_text) (Ok tt)]).
(** [wr] is the just opened file for the public half with text [t] of a pair just made; or for the private half. *)
Definition for_public (sha512 : bytes -> bytes) (streams : list key_streams) (force : bool) (wr : writer) (t : text) (h : list syscall) : Prop :=
  exists ks p pk sk private_text h0 h1, In ks streams /\ k_public ks = Some p /\ key_pair_texts sha512 pk sk = Ok (t, private_text) /\
    creates force (OFile p) wr h1 /\ silent h = h0 ++ SKeypair (pk, sk) :: h1.
Definition for_private (sha512 : bytes -> bytes) (streams : list key_streams) (force : bool) (wr : writer) (t : text) (h : list syscall) : Prop :=
  exists ks public_text h0 h1 h2, In ks streams /\ public_part sha512 force ks public_text t h1 /\
    creates force (k_private ks) wr h2 /\ silent h = h0 ++ h1 ++ h2.

(** ** Shared file systems *)

(** The entries of the files that a command names. *)
Definition concerns (entry_of : names) (streams : list io_stream) (s : N) : Prop :=
  exists st p, In st streams /\ (s_input st = IFile p \/ s_output st = Ok (OFile p)) /\ entry_of p = Some s.
(** Other processes leave the files of the command alone, and the file system consistent. *)
Definition leave_alone (entry_of : names) (streams : list io_stream) (f g : fs) : Prop :=
  wf_fs g /\ forall s, concerns entry_of streams s -> intact f g s.

(** What one call of a command may do to the file system [f], if [f0] was the file system at the start: nothing, or
    something to an output that was not there at the start, or removing an original whose conversion is there. *)
Definition allowed_step (entry_of : names) (lib : crypto_lib) (streams : list io_stream) (d : direction_opts) (f0 f g : fs) : Prop :=
  forall s, intact f g s \/
    (f_entries f0 s = None /\ exists st q, In st streams /\ s_output st = Ok (OFile q) /\ entry_of q = Some s) \/
    (f_entries g s = None /\ exists st q b, In st streams /\ converts entry_of st s q /\ plain_file f s b /\ has_conversion entry_of lib d b g q).
(** The stream is converted: its output file has the conversion of the input; and, if it is a file, of what it has
    now or had when it was removed. *)
Definition stream_done (entry_of : names) (lib : crypto_lib) (d : direction_opts) (f : fs) (st : io_stream) : Prop :=
  s_output st = Ok OStdout \/
  exists q b, s_output st = Ok (OFile q) /\ has_conversion entry_of lib d b f q /\
    forall p, s_input st = IFile p -> exists s, entry_of p = Some s /\ (plain_file f s b \/ f_entries f s = None).

(** Specification of what commands may do to files (C28 to C32, C42, C47). *)
From Coq.Strings Require Import Byte String.
From Coq Require Import List NArith ZArith Bool.
From Verif Require Import Base Shamir Errors Io HeaderIoSpec StreamSpec Text Util CliErrors Getopts Crypto HeaderCrypto CredSpec FileCrypto Ui UiSpec Paths Cli Fs Commands.
Import ListNotations.
Local Open Scope N_scope.

(** A consistent file system: entries refer to existing inodes, which count at least the entries that are there. *)
Definition wf_fs (f : fs) : Prop :=
  (forall s i, f_entries f s = Some (EFile i) -> exists n, f_nodes f i = Some n /\ 1 <= n_links n) /\
  (forall s t i n, f_entries f s = Some (EFile i) -> f_entries f t = Some (EFile i) -> s <> t -> f_nodes f i = Some n -> 2 <= n_links n).

(** All states of the file system up to now, including this one. *)
Definition moments (w : world) : list fs := w_fs w :: w_past w.

(** What is at entry [s] is in [g] as it was in [f]: the entry itself, and the file's content and metadata. *)
Definition intact (f g : fs) (s : N) : Prop :=
  f_entries g s = f_entries f s /\ forall i, f_entries f s = Some (EFile i) -> f_nodes g i = f_nodes f i.

(** At entry [s] there is a regular file with this one name and with content [b]. *)
Definition plain_file (f : fs) (s : N) (b : bytes) : Prop :=
  exists i, f_entries f s = Some (EFile i) /\ f_nodes f i = Some (mkNode true b 1).

Section WithEnvironment.
Variable entry_of : names.
Variable lib : crypto_lib.

(** [c] is the complete result of encrypting or decrypting [b]. *)
Definition is_conversion (d : direction_opts) (b c : bytes) : Prop :=
  exists er src room flush_ok snk,
    random_ok er /\ ends_in_error src = false /\ flat src = b /\
    conversion lib d er src (mkSink [] room flush_ok false) (Ok tt) snk /\ c = w_out snk.

(** The file [q] has the complete conversion of [b]. *)
Definition has_conversion (d : direction_opts) (b : bytes) (f : fs) (q : path) : Prop :=
  exists t c, entry_of q = Some t /\ plain_file f t c /\ is_conversion d b c.

(** The stream [st] converts the file at entry [s] to the file [q]. *)
Definition converts (st : io_stream) (s : N) (q : path) : Prop :=
  exists p, s_input st = IFile p /\ entry_of p = Some s /\ s_output st = Ok (OFile q).

(** No file is both input and output. *)
Definition separate (streams : list io_stream) : Prop :=
  forall st st' p q s, In st streams -> In st' streams -> s_input st = IFile p -> s_output st' = Ok (OFile q) ->
    entry_of p = Some s -> entry_of q <> Some s.
(** Files are converted to files, as the command line makes it. *)
Definition file_to_file (streams : list io_stream) : Prop :=
  forall st p, In st streams -> s_input st = IFile p -> s_output st <> Ok OStdout.
(** No two streams have the same output file. *)
Definition distinct_outputs (streams : list io_stream) : Prop :=
  forall l1 st l2 st' l3 q q' t, streams = l1 ++ st :: l2 ++ st' :: l3 -> s_output st = Ok (OFile q) -> s_output st' = Ok (OFile q') ->
    entry_of q = Some t -> entry_of q' <> Some t.

(** In the run from [w] to [w'] every stream with an output file is converted: the file is new and has, at some moment,
    the conversion of what the input file had then and, if it was there, at the start.  The output is still there at the
    end if no output is also an input. *)
Definition all_converted (streams : list io_stream) (d : direction_opts) (w w' : world) : Prop :=
  forall st, In st streams -> s_output st = Ok OStdout \/
  exists q t b f, s_output st = Ok (OFile q) /\ entry_of q = Some t /\ f_entries (w_fs w) t = None /\
    In f (moments w') /\ has_conversion d b f q /\ (separate streams -> has_conversion d b (w_fs w') q) /\
    (forall p, s_input st = IFile p -> exists s, entry_of p = Some s /\ plain_file f s b /\ (f_entries (w_fs w) s <> None -> plain_file (w_fs w) s b)).

(** The conversion of [b] cannot fail if input and output work. *)
Definition convertible (d : direction_opts) (b : bytes) : Prop :=
  forall er src r snk, random_ok er -> ends_in_error src = false -> flat src = b ->
    conversion lib d er src (mkSink [] None true false) r snk -> r = Ok tt.
(** The stream converts a plain file to a file that is not there yet. *)
Definition ready (d : direction_opts) (f : fs) (st : io_stream) : Prop :=
  exists p s b q t, s_input st = IFile p /\ entry_of p = Some s /\ plain_file f s b /\ convertible d b /\
    s_output st = Ok (OFile q) /\ entry_of q = Some t /\ f_entries f t = None.

(** Reading the stream to its end works and delivers [b]. *)
Definition readable (f : fs) (u : ui) (i : input_stream) (b : bytes) : Prop :=
  match i with
  | IStdin => exists src, u_input u = Some src /\ ends_in_error src = false /\ flat src = b
  | IFile p | IFileStream p =>
      exists s t j n, entry_of p = Some s /\ follow max_links f s = Some t /\ f_entries f t = Some (EFile j) /\ f_nodes f j = Some n /\
        n_regular n = true /\ n_content n = b
  end.

(** The names of the files of a key pair. *)
Definition key_files (ks : key_streams) : list path :=
  match k_public ks with Some p => [p] | None => [] end ++ match k_private ks with OFile p => [p] | OStdout => [] end.
(** Different names in existing directories, of files that are not there yet. *)
Definition free_names (f : fs) (l : list path) : Prop :=
  exists ts, map entry_of l = map Some ts /\ NoDup ts /\ forall t, In t ts -> f_entries f t = None.

(** The input stream can deliver [src], in the file system [f] and with the standard input of [u]. *)
Definition can_deliver (f : fs) (u : ui) (i : input_stream) (src : source) : Prop :=
  match i with
  | IStdin => u_input u = Some src
  | IFile p | IFileStream p =>
      exists s t, entry_of p = Some s /\ follow max_links f s = Some t /\
        forall j n, f_entries f t = Some (EFile j) -> f_nodes f j = Some n -> n_regular n = true -> exists rest, n_content n = flat src ++ rest
  end.

End WithEnvironment.

(** There are always unused inodes. *)
Definition spacious (f : fs) : Prop := forall l : list N, exists i, unused f i /\ ~ In i l.

(** In the run from [w] to [w'] the user asks for the removal of the originals: by an option, or by the answer to a
    question. *)
Definition deletion_requested (policy : cleanup_policy) (w w' : world) : Prop :=
  policy = DeleteFiles \/
  (policy = PromptUser /\ exists before reply after,
     u_trace (w_ui w') = u_trace (w_ui w) ++ before ++ Printed (MPrompt (lit "Remove original file(s)? [y/N]: ")) :: Typed reply :: after /\
     In reply yes_words).

(** The user writes the option [o]: by its long name, as a single letter after two dashes, or as one of the letters
    after one dash (some of which may be meant as the value of an option). *)
Definition asked (args : list text) (o : opt) : Prop :=
  exists a, In a args /\
    (a = lit "--" ++ long o \/
     exists c, short o = Some c /\ (a = [45; 45; c] \/ exists first letters, a = 45 :: first :: letters /\ first <> 45 /\ In c (first :: letters))).

(** Model of io_streams.rs (opening and cleaning up), commands/crypt.rs, commands/gen_keys.rs, commands/mod.rs and
    main.rs. *)
From Coq.Strings Require Import Byte String.
From Coq Require Import List NArith ZArith Bool Sorting.Sorted.
From Verif Require Import Base Shamir Errors Io HeaderIoSpec StreamSpec Text Util CliErrors Crypto HeaderCrypto FileCrypto CredSpec KeyFiles Progress ProgressSpec Ui Paths Getopts CliCreds Cli Fs.
Import ListNotations.
Local Open Scope N_scope.

(** [Path::to_string_lossy], for messages *)
Definition component_text (c : component) : text :=
  match c with RootDir => [] | CurDir => [46] | ParentDir => [46; 46] | Normal n => n end.
Fixpoint path_text (p : path) : text :=
  match p with
  | [] => []
  | [RootDir] => [47]
  | [c] => component_text c
  | c :: p => component_text c ++ [47] ++ path_text p
  end.
(** io_streams.rs:18-23, 117-122 *)
Definition input_path (i : input_stream) : text :=
  match i with IFile p | IFileStream p => path_text p | IStdin => lit "(stdin)" end.
Definition output_path (o : output_stream) : text :=
  match o with OFile p => path_text p | OStdout => lit "(stdout)" end.

(** An ignored progress line (progress.rs:117-119), any number of times. *)
Fixpoint progress_lines (n : nat) (u : ui) : ui :=
  match n with O => u | S n => progress_lines n (snd (println_progress 0 u)) end.

Section WithEnvironment.
Variable entry_of : names.
Variable lib : crypto_lib.

(** io_streams.rs:27-66.  The file size, which only matters for the progress display, is left out. *)
Definition open_file (p : path) : io (reader * metadata) :=
  let! file := open_read entry_of p in
  let! md := symlink_metadata entry_of p in
  let! _ := io_lift (ensure (match m_type md with FDirectory => false | _ => true end) CDirectory) in
  io_ret (file, md).
(** main.rs and ui.rs:106-109: the interface gives its input away; [unwrap] panics the second time. *)
Definition open_stdin : io reader := fun w r w' =>
  match u_input (w_ui w) with
  | Some s => r = Ok (ReadStdin s) /\ w' = set_ui w (set_input (w_ui w) None)
  | None => r = Panic /\ w' = w
  end.
Definition open_input (i : input_stream) (force : bool) : io reader :=
  match i with
  | IFile p =>
      let! (file, md) := open_file p in
      let! _ := io_lift (ensure (force || match m_type md with FSymlink => false | _ => true end) CSymlink) in
      let! _ := io_lift (ensure (force || (m_nlink md =? 1)) CHardLinks) in
      let! _ := io_lift (ensure (force || match m_type md with FRegular => true | _ => false end) CNotRegular) in
      io_ret file
  | IFileStream p => let! (file, _) := open_file p in io_ret file
  | IStdin => open_stdin
  end.
(** io_streams.rs:124-147 *)
Definition open_output (o : output_stream) (force : bool) : io writer :=
  match o with
  | OFile p => if force then create_or_truncate entry_of p else create_new entry_of p
  | OStdout => io_ret WriteStdout
  end.

(** The cleanup callbacks, io_streams.rs:68-92 and 148-171, with what the caller does about their errors
    (crypt.rs:81-83 and 103): the error is printed unless forced, and then ignored. *)
Definition remove_cb (p : path) (force : bool) : io unit :=
  let! r := io_try (remove_file entry_of p) in
  match r with
  | Err e => if force then io_ret tt else io_ui (ignore (print_error e))
  | _ => io_ret tt
  end.
(** Only real files have one. *)
Definition input_cleanup (i : input_stream) : list path := match i with IFile p => [p] | _ => [] end.
Definition output_cleanup (o : output_stream) : option path := match o with OFile p => Some p | OStdout => None end.

(** Header and data of one stream, crypt.rs:47-68 (FileCrypto). *)
Definition conversion (d : direction_opts) (er : enc_random) (src : source) (w : sink) (r : outcome err unit) (w' : sink) : Prop :=
  match d with
  | DoEncrypt (Complex subs n t) fast => encrypt_stream lib (mkEncryptOptions subs n t fast) er src w r w'
  | DoEncrypt _ _ => r = Panic /\ w' = w
  | DoDecrypt cs => decrypt_stream lib cs src w r w'
  end.
Definition conversion_result (r : outcome err unit) : outcome cerr unit :=
  match r with Ok tt => Ok tt | Err _ => Err CConversion | Panic => Panic end.

(** What progress reporting is told (crypt.rs:42, 56, 67, io_streams.rs:52-63): the file size, which is unknown for the
    standard input, and the processed pieces of the input with their times.  In a system that never stalls the clock
    does not run backwards, and there is a byte per second and no more than 8 PiB (ProgressSpec). *)
Definition notified (rd : reader) (src : source) (start : N) (filesize : option N) (events : list (N * N)) : Prop :=
  fold_right N.add 0 (map snd events) <= lenN (flat src) /\ (forall s, rd = ReadStdin s -> filesize = None) /\
  (stalls entry_of = false ->
     in_range start filesize events /\ StronglySorted clock_ok (points start events) /\ StronglySorted not_stalled (points start events)).
(** Progress reporting can panic (C44). *)
Definition progress_panics (rd : reader) (src : source) : Prop :=
  exists start filesize events, notified rd src start filesize events /\ report start filesize events = Panic.
(** crypt.rs:46-69 with the opened streams.  The randomness, the pieces in which the input arrives, how much fits on
    the disk, and how many progress lines are printed are arbitrary;
    printing them can panic at any time. *)
Definition convert (d : direction_opts) (rd : reader) (wr : writer) : io unit := fun w r w' =>
  exists er src room flush_ok r0 snk lines,
    random_ok er /\ (faulty entry_of = false -> room = None /\ flush_ok = true) /\ provides entry_of (w_fs w) rd wr src /\
    conversion d er src (mkSink [] room flush_ok false) r0 snk /\
    ((r = conversion_result r0 /\ w' = (let w1 := write_out wr (w_out snk) w in set_ui w1 (progress_lines lines (w_ui w1)))) \/
     (r = Panic /\ progress_panics rd src /\ exists out, prefix_of out (w_out snk) /\
        w' = (let w1 := write_out wr out w in set_ui w1 (progress_lines lines (w_ui w1))))).

(** progress.rs:44-61; the numbers of the file and of all files are printed by std. *)
Definition file_header (k n : nat) (s : io_stream) : text :=
  input_path (s_input s) ++ lit " -> " ++ match s_output s with Ok o => output_path o | _ => lit "(error)" end ++
  lit " (" ++ dec (N.of_nat k + 1) ++ lit "/" ++ dec (N.of_nat n) ++ lit ")".
(** gen_keys.rs:49 *)
Definition keypair_header (k n : nat) : text := lit "Keypair " ++ dec (N.of_nat k + 1) ++ lit "/" ++ dec (N.of_nat n) ++ lit ":".

(** The closure crypt.rs:26-69, with the callback for the output, which is only set once the output is open. *)
Definition attempt (k n : nat) (s : io_stream) (force : bool) (d : direction_opts) : io (outcome cerr unit * option path) :=
  let! opened := io_try (
    let! _ := io_ui (ignore (ui_println 0 (file_header k n s))) in
    let! output := io_lift (s_output s) in
    let! rd := open_input (s_input s) force in
    let! wr := open_output output force in
    io_ret (rd, wr, output_cleanup output)) in
  match opened with
  | Ok (rd, wr, cb) => let! r := io_try (convert d rd wr) in io_ret (r, cb)
  | Err e => io_ret (Err e, None)
  | Panic => io_lift Panic
  end.

(** One round of the loop, crypt.rs:23-86: the input file to clean up if it was converted, or the error. *)
Definition step (k n : nat) (s : io_stream) (force : bool) (d : direction_opts) : io (list path * list cerr) :=
  let! (res, output_cb) := attempt k n s force d in
  match res with
  | Ok _ => io_ret (input_cleanup (s_input s), [])
  | Err e =>
      let! _ := io_ui (ignore (print_error e)) in
      let! _ := match output_cb with Some p => remove_cb p force | None => io_ret tt end in
      io_ret ([], [e])
  | Panic => io_lift Panic
  end.
(** crypt.rs:19-89: the loop over the files from the [k]-th on, of [n]; gives the input files to clean up, and the errors. *)
Fixpoint process (k n : nat) (streams : list io_stream) (force : bool) (d : direction_opts) : io (list path * list cerr) :=
  match streams with
  | [] => io_ret ([], [])
  | s :: streams =>
      let! (cbs, errors) := step k n s force d in
      let! _ := io_ui (ui_println 0 []) in
      let! (cbs', errors') := process (S k) n streams force d in
      io_ret (cbs ++ cbs', errors ++ errors')
  end.

(** crypt.rs:101-105 *)
Fixpoint remove_all (cbs : list path) (force : bool) : io unit :=
  match cbs with
  | [] => io_ret tt
  | p :: cbs => let! _ := remove_cb p force in remove_all cbs force
  end.

Definition question : text := lit "Remove original file(s)?".
(** crypt.rs:12-114 *)
Definition crypt_streams (streams : list io_stream) (policy : cleanup_policy) (force : bool) (d : direction_opts) : io unit :=
  let! (cbs, errors) := process 0 (length streams) streams force d in
  let! _ :=
    match cbs with
    | [] => io_ret tt
    | _ =>
        let! should_delete :=
          match policy with
          | KeepFiles => io_ret false
          | DeleteFiles => io_ret true
          | PromptUser =>
              let! answer := io_ui (read_prompt_bool 0 question false) in
              io_ret (match answer with Some b => b | None => false end)
          end in
        if should_delete : bool then remove_all cbs force else io_ret tt
    end in
  io_lift (match errors with [] => Ok tt | _ => Err CComposite end).

(** ** Key pairs *)

Variable sha512 : bytes -> bytes.

(** [Write::write_all]: everything, or an error after a part of it. *)
Definition write_text (wr : writer) (t : text) : io unit := fun w r w' =>
  (r = Ok tt /\ w' = write_out wr (utf8 t) w) \/
  (faulty entry_of = true /\ r = Err CIo /\ exists out, prefix_of out (utf8 t) /\ w' = write_out wr out w).

(** The closure gen_keys.rs:53-71 *)
Definition write_pair (ks : key_streams) (force : bool) (public_text private_text : text) : io unit :=
  let! _ :=
    match k_public ks with
    | Some p =>
        let! _ := io_ui (ui_println 0 (lit "    Public key file: " ++ path_text p)) in
        let! wr := open_output (OFile p) force in
        write_text wr public_text
    | None => io_ret tt
    end in
  let! _ := io_ui (ui_println 0 (lit "    Private key file: " ++ output_path (k_private ks))) in
  let! wr := open_output (k_private ks) force in
  write_text wr private_text.

(** gen_keys.rs:10-84.  The key pairs are made from arbitrary seeds; [k] pairs of [n] are done. *)
Definition generate_keypair (cs : cryptosys) : io (bytes * bytes) := fun w r w' =>
  w' = w /\ exists seed, r = Ok (cs_keypair cs seed).
Fixpoint generate_all (k n : nat) (cs : cryptosys) (streams : list key_streams) (force : bool) : io (list cerr) :=
  match streams with
  | [] => io_ret []
  | ks :: streams =>
      let! (public_key, private_key) := generate_keypair cs in
      let! (public_text, private_text) := io_lift (key_pair_texts sha512 public_key private_key) in
      let! _ := io_ui (ui_println 0 (keypair_header k n)) in
      let! _ := io_ui (ui_println 0 (lit "    Public key: " ++ trim public_text)) in
      let! res := io_try (write_pair ks force public_text private_text) in
      let! errors :=
        match res with
        | Ok _ => io_ret []
        | Err e => let! _ := io_ui (print_error e) in io_ret [e]
        | Panic => io_lift Panic
        end in
      let! _ := io_ui (ui_println 0 []) in
      let! errors' := generate_all (S k) n cs streams force in
      io_ret (errors ++ errors')
  end.
Definition generate_key_pair_files (streams : list key_streams) (force : bool) : io unit :=
  let! cs := io_lift (match lib ChaCha20Poly1305Ietf with Some cs => Ok cs | None => Err CConversion end) in
  let! errors := generate_all 0 (length streams) cs streams force in
  io_lift (match errors with [] => Ok tt | _ => Err CComposite end).

(** ** The program *)

Variable files : text -> option bytes.
(** commands/help.rs writes some text to standard output, or fails. *)
Definition print_text : io unit := fun w r w' =>
  exists out, w' = write_out WriteStdout out w /\ (r = Ok tt \/ faulty entry_of = true /\ r = Err CIo).
(** commands/mod.rs:66-75 *)
Definition run_command (c : command) : io unit :=
  match c with
  | CryptStreams streams policy force d => crypt_streams streams policy force d
  | GenerateKeyPair streams force => generate_key_pair_files streams force
  | Help | Version => print_text
  end.
(** main.rs:45-71: the exit status; 101 is a panic. *)
Definition main (args : list text) (stdin_is_tty stdout_is_tty stderr_is_tty : bool) (w : world) (status : N) (w' : world) : Prop :=
  exists r w1,
    (let! c := io_ui (parse_command_line sha512 files args stdin_is_tty stdout_is_tty stderr_is_tty) in run_command c) w r w1 /\
    match r with
    | Ok _ => status = 0 /\ w' = w1
    | Err CComposite => status = 1 /\ w' = w1
    | Err e => status = 1 /\ w' = set_ui w1 (snd (print_error e (w_ui w1)))
    | Panic => status = 101 /\ w' = w1
    end.

End WithEnvironment.

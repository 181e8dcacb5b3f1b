(** The commands of Commands once more, as programs for an arbitrary operating system.

    Commands says what a run does to a file system that nobody else uses and that works as Fs describes it.  Here the
    same functions are written in terms of the calls to the operating system alone, so that they can also be run where
    each call can have any answer (Calls).  That this is the program of Commands is [run_command_fs] below. *)
From Coq.Strings Require Import Byte String.
From Coq Require Import List NArith ZArith Bool.
From Verif Require Import Base Shamir Errors Io Text Util CliErrors Crypto HeaderCrypto FileCrypto CredSpec KeyFiles Ui Paths Getopts CliCreds Cli Fs Commands.
Import ListNotations.
Local Open Scope N_scope.

(** What the program uses: results that stop the computation if they are errors ([?] in Rust), closures whose result is
    inspected, the terminal, and the calls to the operating system that are modelled in Fs and Commands. *)
Record os (M : Type -> Type) := mkOs {
  p_ret : forall A, A -> M A;
  p_lift : forall A, outcome cerr A -> M A;
  p_bind : forall A B, M A -> (A -> M B) -> M B;
  p_try : forall A, M A -> M (outcome cerr A);
  p_ui : forall A, act A -> M A;
  p_open_read : path -> M reader;
  p_stat : path -> M metadata;
  p_create_new : path -> M writer;
  p_create_or_truncate : path -> M writer;
  p_remove : path -> M unit;
  p_stdin : M reader;
  p_convert : direction_opts -> reader -> writer -> M unit;
  p_write_text : writer -> text -> M unit;
  p_keypair : cryptosys -> M (bytes * bytes)%type;
  p_print_text : M unit }.

Section WithSystem.
Variable M : Type -> Type.
Variable o : os M.
Local Notation pret := (p_ret M o _).
Local Notation plift := (p_lift M o _).
Local Notation ptry := (p_try M o _).
Local Notation pui := (p_ui M o _).
Local Notation "'let?' p ':=' x 'in' k" := (p_bind M o _ _ x (fun p => k))
  (at level 200, p pattern, x at level 100, k at level 200, right associativity).

(** io_streams.rs:27-66 *)
Definition open_file_p (p : path) : M (reader * metadata)%type :=
  let? file := p_open_read M o p in
  let? md := p_stat M o p in
  let? _ := plift (ensure (match m_type md with FDirectory => false | _ => true end) CDirectory) in
  pret (file, md).
Definition open_input_p (i : input_stream) (force : bool) : M reader :=
  match i with
  | IFile p =>
      let? (file, md) := open_file_p p in
      let? _ := plift (ensure (force || match m_type md with FSymlink => false | _ => true end) CSymlink) in
      let? _ := plift (ensure (force || (m_nlink md =? 1)) CHardLinks) in
      let? _ := plift (ensure (force || match m_type md with FRegular => true | _ => false end) CNotRegular) in
      pret file
  | IFileStream p => let? (file, _) := open_file_p p in pret file
  | IStdin => p_stdin M o
  end.
(** io_streams.rs:124-147 *)
Definition open_output_p (out : output_stream) (force : bool) : M writer :=
  match out with
  | OFile p => if force then p_create_or_truncate M o p else p_create_new M o p
  | OStdout => pret WriteStdout
  end.
(** io_streams.rs:68-92 and 148-171, crypt.rs:81-83 and 103 *)
Definition remove_cb_p (p : path) (force : bool) : M unit :=
  let? r := ptry (p_remove M o p) in
  match r with
  | Err e => if force then pret tt else pui (ignore (print_error e))
  | _ => pret tt
  end.

(** crypt.rs:26-69 *)
Definition attempt_p (k n : nat) (s : io_stream) (force : bool) (d : direction_opts) : M (outcome cerr unit * option path)%type :=
  let? opened := ptry (
    let? _ := pui (ignore (ui_println 0 (file_header k n s))) in
    let? output := plift (s_output s) in
    let? rd := open_input_p (s_input s) force in
    let? wr := open_output_p output force in
    pret (rd, wr, output_cleanup output)) in
  match opened with
  | Ok (rd, wr, cb) => let? r := ptry (p_convert M o d rd wr) in pret (r, cb)
  | Err e => pret (Err e, None)
  | Panic => plift Panic
  end.
(** crypt.rs:23-86 *)
Definition step_p (k n : nat) (s : io_stream) (force : bool) (d : direction_opts) : M (list path * list cerr)%type :=
  let? (res, output_cb) := attempt_p k n s force d in
  match res with
  | Ok _ => pret (input_cleanup (s_input s), [])
  | Err e =>
      let? _ := pui (ignore (print_error e)) in
      let? _ := match output_cb with Some p => remove_cb_p p force | None => pret tt end in
      pret ([], [e])
  | Panic => plift Panic
  end.
(** crypt.rs:19-89 *)
Fixpoint process_p (k n : nat) (streams : list io_stream) (force : bool) (d : direction_opts) : M (list path * list cerr)%type :=
  match streams with
  | [] => pret ([], [])
  | s :: streams =>
      let? (cbs, errors) := step_p k n s force d in
      let? _ := pui (ui_println 0 []) in
      let? (cbs', errors') := process_p (S k) n streams force d in
      pret (cbs ++ cbs', errors ++ errors')
  end.
(** crypt.rs:101-105 *)
Fixpoint remove_all_p (cbs : list path) (force : bool) : M unit :=
  match cbs with
  | [] => pret tt
  | p :: cbs => let? _ := remove_cb_p p force in remove_all_p cbs force
  end.
(** crypt.rs:12-114 *)
Definition crypt_streams_p (streams : list io_stream) (policy : cleanup_policy) (force : bool) (d : direction_opts) : M unit :=
  let? (cbs, errors) := process_p 0 (length streams) streams force d in
  let? _ :=
    match cbs with
    | [] => pret tt
    | _ =>
        let? should_delete :=
          match policy with
          | KeepFiles => pret false
          | DeleteFiles => pret true
          | PromptUser =>
              let? answer := pui (read_prompt_bool 0 question false) in
              pret (match answer with Some b => b | None => false end)
          end in
        if should_delete : bool then remove_all_p cbs force else pret tt
    end in
  plift (match errors with [] => Ok tt | _ => Err CComposite end).

(** gen_keys.rs:53-71 *)
Definition write_pair_p (ks : key_streams) (force : bool) (public_text private_text : text) : M unit :=
  let? _ :=
    match k_public ks with
    | Some p =>
        let? _ := pui (ui_println 0 (lit "    Public key file: " ++ path_text p)) in
        let? wr := open_output_p (OFile p) force in
        p_write_text M o wr public_text
    | None => pret tt
    end in
  let? _ := pui (ui_println 0 (lit "    Private key file: " ++ output_path (k_private ks))) in
  let? wr := open_output_p (k_private ks) force in
  p_write_text M o wr private_text.
(** gen_keys.rs:10-84 *)
Variable lib : crypto_lib.
Variable sha512 : bytes -> bytes.
Fixpoint generate_all_p (k n : nat) (cs : cryptosys) (streams : list key_streams) (force : bool) : M (list cerr) :=
  match streams with
  | [] => pret []
  | ks :: streams =>
      let? (public_key, private_key) := p_keypair M o cs in
      let? (public_text, private_text) := plift (key_pair_texts sha512 public_key private_key) in
      let? _ := pui (ui_println 0 (keypair_header k n)) in
      let? _ := pui (ui_println 0 (lit "    Public key: " ++ trim public_text)) in
      let? res := ptry (write_pair_p ks force public_text private_text) in
      let? errors :=
        match res with
        | Ok _ => pret []
        | Err e => let? _ := pui (print_error e) in pret [e]
        | Panic => plift Panic
        end in
      let? _ := pui (ui_println 0 []) in
      let? errors' := generate_all_p (S k) n cs streams force in
      pret (errors ++ errors')
  end.
Definition generate_key_pair_files_p (streams : list key_streams) (force : bool) : M unit :=
  let? cs := plift (match lib ChaCha20Poly1305Ietf with Some cs => Ok cs | None => Err CConversion end) in
  let? errors := generate_all_p 0 (length streams) cs streams force in
  plift (match errors with [] => Ok tt | _ => Err CComposite end).

(** commands/mod.rs:66-75 *)
Definition run_command_p (c : command) : M unit :=
  match c with
  | CryptStreams streams policy force d => crypt_streams_p streams policy force d
  | GenerateKeyPair streams force => generate_key_pair_files_p streams force
  | Help | Version => p_print_text M o
  end.
(** main.rs:45-65: reading the command line and running the command *)
Variable files : text -> option bytes.
Definition main_p (args : list text) (stdin_is_tty stdout_is_tty stderr_is_tty : bool) : M unit :=
  let? c := pui (parse_command_line sha512 files args stdin_is_tty stdout_is_tty stderr_is_tty) in run_command_p c.

End WithSystem.

(** The operating system of Fs. *)
Definition fs_os (entry_of : names) (lib : crypto_lib) : os io := {|
  p_ret := @io_ret; p_lift := @io_lift; p_bind := @io_bind; p_try := @io_try; p_ui := @io_ui;
  p_open_read := open_read entry_of; p_stat := symlink_metadata entry_of; p_create_new := create_new entry_of;
  p_create_or_truncate := create_or_truncate entry_of; p_remove := remove_file entry_of; p_stdin := open_stdin;
  p_convert := convert entry_of lib; p_write_text := write_text entry_of; p_keypair := generate_keypair;
  p_print_text := print_text entry_of |}.

Lemma run_command_fs entry_of lib sha512 c :
  run_command_p io (fs_os entry_of lib) lib sha512 c = run_command entry_of lib sha512 c.
Proof. reflexivity. Qed.

(** Runs of the program as sequences of calls to the operating system, each of which can have any answer, and which can
    be cut off anywhere.

    This is the program of Commands (Program) where nothing is assumed about the file system: other processes may use
    it at the same time, calls may fail or lie, and the process may be killed. *)
From Coq.Strings Require Import Byte String.
From Coq Require Import List NArith ZArith Bool.
From Verif Require Import Base Shamir Errors Io HeaderIoSpec StreamSpec Text Util CliErrors Crypto HeaderCrypto FileCrypto CredSpec Ui Paths CliCreds Cli Fs Commands Program.
Import ListNotations.
Local Open Scope N_scope.

(** A call with its answer. *)
Inductive syscall :=
| SOpenRead (p : path) (r : outcome cerr reader)            (* io_streams.rs:29-31 *)
| SStat (p : path) (r : outcome cerr metadata)              (* io_streams.rs:34 *)
| SCreateNew (p : path) (r : outcome cerr writer)           (* io_streams.rs:128-131 *)
| SCreateOrTruncate (p : path) (r : outcome cerr writer)    (* io_streams.rs:128, 132-135 *)
| SRemove (p : path) (r : outcome cerr unit)                (* io_streams.rs:75, 155 *)
| STakeStdin (s : source)                                   (* ui.rs:106-109 *)
  (* All of crypt.rs:46-69: what was read, what was written, and the result unless it was cut off. *)
| SConvert (d : direction_opts) (rd : reader) (wr : writer) (src : source) (out : bytes) (r : option (outcome cerr unit))
  (* [write_all] of a text, and what was written of it; gen_keys.rs:58, 67 *)
| SWriteText (wr : writer) (t : text) (out : bytes) (r : outcome cerr unit)
| SKeypair (pair : bytes * bytes)                           (* gen_keys.rs:28 *)
| SStdout (out : bytes) (r : outcome cerr unit)             (* commands/help.rs *)
| SUi (new : list event).                                   (* what happens at the terminal, Ui *)

(** [m u r h u']: started with the terminal [u], the computation can make the calls [h] and end with result [r].
    [None]: the process is killed after the calls [h], the last of which may or may not have had its effect. *)
Definition trace (A : Type) : Type := ui -> option (outcome cerr A) -> list syscall -> ui -> Prop.
Definition t_lift {A} (x : outcome cerr A) : trace A := fun u r h u' => r = Some x /\ h = [] /\ u' = u.
Definition t_ret {A} (a : A) : trace A := t_lift (Ok a).
Definition t_bind {A B} (m : trace A) (f : A -> trace B) : trace B := fun u r h u' =>
  (exists a h1 u1 h2, m u (Some (Ok a)) h1 u1 /\ f a u1 r h2 u' /\ h = h1 ++ h2) \/
  (exists e, m u (Some (Err e)) h u' /\ r = Some (Err e)) \/
  (m u (Some Panic) h u' /\ r = Some Panic) \/
  (m u None h u' /\ r = None).
Definition t_try {A} (m : trace A) : trace (outcome cerr A) := fun u r h u' =>
  (exists x, x <> Panic /\ m u (Some x) h u' /\ r = Some (Ok x)) \/
  (m u (Some Panic) h u' /\ r = Some Panic) \/
  (m u None h u' /\ r = None).
(** A call that is recorded with any answer, after which the process may be killed; or it is killed before. *)
Definition t_call {A} (e : outcome cerr A -> syscall) : trace A := fun u r h u' => u' = u /\
  ((exists x, x <> Panic /\ h = [e x] /\ (r = Some x \/ r = None)) \/ (h = [] /\ r = None)).
(** What [m] does at the terminal; all of it, or the first part if the process is killed. *)
Definition new_events (u u' : ui) : list event := skipn (length (u_trace u)) (u_trace u').
Definition t_ui {A} (m : act A) : trace A := fun u r h u' => u' = snd (m u) /\
  ((h = [SUi (new_events u u')] /\ r = Some (fst (m u))) \/
   (exists new, prefix_of new (new_events u u') /\ h = [SUi new] /\ r = None)).
Definition t_stdin : trace reader := fun u r h u' =>
  match u_input u with
  | Some s => u' = set_input u None /\ h = [STakeStdin s] /\ (r = Some (Ok (ReadStdin s)) \/ r = None)
  | None => u' = u /\ h = [] /\ r = Some Panic
  end.

Section WithLibrary.
Variable lib : crypto_lib.

(** crypt.rs:46-69 as in Commands.convert, but the input can deliver anything.  (Except that standard input was given
    away with its content.) *)
Definition t_convert (d : direction_opts) (rd : reader) (wr : writer) : trace unit := fun u r h u' =>
  exists er src room flush_ok r0 snk lines,
    random_ok er /\ (forall s, rd = ReadStdin s -> src = s) /\
    conversion lib d er src (mkSink [] room flush_ok false) r0 snk /\ u' = progress_lines lines u /\
    ((h = [SConvert d rd wr src (w_out snk) (Some (conversion_result r0))] /\ r = Some (conversion_result r0)) \/
     (exists out, prefix_of out (w_out snk) /\ h = [SConvert d rd wr src out None] /\ (r = Some Panic \/ r = None))).
Definition t_write_text (wr : writer) (t : text) : trace unit := fun u r h u' => u' = u /\
  exists out x, prefix_of out (utf8 t) /\ x <> Panic /\ (x = Ok tt -> out = utf8 t) /\ h = [SWriteText wr t out x] /\ (r = Some x \/ r = None).
Definition t_keypair (cs : cryptosys) : trace (bytes * bytes) := fun u r h u' => u' = u /\
  exists seed, h = [SKeypair (cs_keypair cs seed)] /\ (r = Some (Ok (cs_keypair cs seed)) \/ r = None).
Definition t_print_text : trace unit := fun u r h u' => u' = u /\
  exists out x, x <> Panic /\ h = [SStdout out x] /\ (r = Some x \/ r = None).

Definition any_os : os trace := {|
  p_ret := @t_ret; p_lift := @t_lift; p_bind := @t_bind; p_try := @t_try; p_ui := @t_ui;
  p_open_read := fun p => t_call (SOpenRead p); p_stat := fun p => t_call (SStat p);
  p_create_new := fun p => t_call (SCreateNew p); p_create_or_truncate := fun p => t_call (SCreateOrTruncate p);
  p_remove := fun p => t_call (SRemove p); p_stdin := t_stdin;
  p_convert := t_convert; p_write_text := t_write_text; p_keypair := t_keypair; p_print_text := t_print_text |}.

(** The runs of the commands, and of the program from reading the command line to the result that main.rs:66-71 turns
    into the exit status. *)
Definition crypt_calls := crypt_streams_p trace any_os.
Definition key_calls := generate_key_pair_files_p trace any_os lib.
Definition main_calls := main_p trace any_os lib.

(** What a call does to the world of Fs, if it has this answer. *)
Variable entry_of : names.
Definition takes (e : syscall) (w w' : world) : Prop :=
  match e with
  | SOpenRead p r => open_read entry_of p w r w'
  | SStat p r => symlink_metadata entry_of p w r w'
  | SCreateNew p r => create_new entry_of p w r w'
  | SCreateOrTruncate p r => create_or_truncate entry_of p w r w'
  | SRemove p r => remove_file entry_of p w r w'
  | STakeStdin s => open_stdin w (Ok (ReadStdin s)) w'
  | SConvert _ rd wr src out _ =>
      provides entry_of (w_fs w) rd wr src /\
      exists lines, w' = (let w1 := write_out wr out w in set_ui w1 (progress_lines lines (w_ui w1)))
  | SWriteText wr _ out _ => w' = write_out wr out w
  | SKeypair _ => w' = w
  | SStdout out _ => w' = write_out WriteStdout out w
  | SUi new => exists u, w' = set_ui w u /\ new = new_events (w_ui w) u
  end.
(** A run in a file system that other processes change between the calls, in ways that [others] allows. *)
Variable others : fs -> fs -> Prop.
Inductive shared : world -> list syscall -> world -> Prop :=
| sh_done w : shared w [] w
| sh_own e h w w1 w' : takes e w w1 -> shared w1 h w' -> shared w (e :: h) w'
| sh_other f h w w' : others (w_fs w) f -> shared (set_fs w f) h w' -> shared w h w'.

End WithLibrary.
(** Other processes do nothing. *)
Definition nothing (f g : fs) : Prop := False.
(** Other processes do anything. *)
Definition anything (f g : fs) : Prop := True.

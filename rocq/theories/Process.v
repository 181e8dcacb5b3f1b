(** Model of main.rs:13-44, the beginning of the program: its arguments and environment variables as bytes, and which of
    the standard streams are terminals. *)
From Coq.Strings Require Import Byte String.
From Coq Require Import List NArith ZArith Bool.
From Verif Require Import Base Io Text Util CliErrors Crypto HeaderCrypto Ui Fs Commands.
Import ListNotations.
Local Open Scope N_scope.

(** What the operating system hands over, without the name of the program, which only occurs in messages (main.rs:27-31).
    Other variables than the three are never looked at. *)
Record invocation := mkInvocation {
  p_args : list bytes;
  p_variable : text -> option bytes;
  p_stdin_terminal : bool;    (* terminal.rs:34-43: isatty *)
  p_stdout_terminal : bool;
  p_stderr_terminal : bool
}.

(** [env::var(name).is_ok()]: the variable is set, and to Unicode. *)
Definition var_is_ok (p : invocation) (name : text) : bool :=
  match p_variable p name with
  | Some v => match from_utf8 v with Valid _ => true | _ => false end
  | None => false
  end.
(** main.rs:20-22 *)
Definition stdin_is_tty (p : invocation) : bool := p_stdin_terminal p || var_is_ok p (lit "RYPT_STDIN_TTY_OVERRIDE").
Definition stdout_is_tty (p : invocation) : bool := p_stdout_terminal p || var_is_ok p (lit "RYPT_STDOUT_TTY_OVERRIDE").
Definition stderr_is_tty (p : invocation) : bool := p_stderr_terminal p || var_is_ok p (lit "RYPT_STDERR_TTY_OVERRIDE").

(** [getopts::Options::parse] (cli/mod.rs:71) first makes all arguments text ([OsStr::to_str]). *)
Fixpoint to_texts (args : list bytes) : outcome cerr (list text) :=
  match args with
  | [] => Ok []
  | a :: args =>
      match from_utf8 a with
      | Valid t => let* ts := to_texts args in Ok (t :: ts)
      | _ => Err CUnrecognizedOption
      end
  end.

(** main.rs:24-44 and ui.rs:85-102: the interface at the start.  [room]: what standard error accepts (Ui). *)
Definition new_ui (p : invocation) (stdin : source) (room : option nat) : ui :=
  mkUi (Some stdin) (stdin_is_tty p) (stderr_is_tty p) 0 true room [].
Definition at_start (p : invocation) (f : fs) (stdin : source) (room : option nat) : world := mkWorld f [] (new_ui p stdin room) [] [].

(** main.rs:13-72.  The arguments are made text inside [parse_command_line], before it does anything else (cli/mod.rs:70-71). *)
Definition run_process (entry_of : names) (lib : crypto_lib) (sha512 : bytes -> bytes) (files : text -> option bytes)
    (p : invocation) (f : fs) (stdin : source) (room : option nat) (status : N) (w' : world) : Prop :=
  let w := at_start p f stdin room in
  match to_texts (p_args p) with
  | Ok args => main entry_of lib sha512 files args (stdin_is_tty p) (stdout_is_tty p) (stderr_is_tty p) w status w'
  | Err e => status = 1 /\ w' = set_ui w (snd (print_error e (w_ui w)))
  | Panic => False
  end.

(** Model of terminal.rs:47-62 (Unix): how the echo of the terminal is switched.  In Ui it is only an event; here it has
    its effect on the settings of the terminal that is standard input. *)
From Coq Require Import List NArith Bool.
From Verif Require Import Base Ui.
Import ListNotations.
Local Open Scope N_scope.

(** termios(3) on Linux: flags, line discipline, special characters and speeds. *)
Record termios := mkTermios {
  c_iflag : N; c_oflag : N; c_cflag : N; c_lflag : N; c_line : N; c_cc : list N; c_ispeed : N; c_ospeed : N
}.
(** [std::mem::zeroed()] (terminal.rs:53) *)
Definition zeroed : termios := mkTermios 0 0 0 0 0 (repeat 0 32) 0 0.
(** libc for Linux *)
Definition ECHO : N := 8.

(** The terminal that standard input is, if it is one; else both calls fail and change nothing.  (With the variable
    RYPT_STDIN_TTY_OVERRIDE the program asks for passwords also then, main.rs:19.)  The results are not inspected. *)
Definition tcgetattr (tty : option termios) (t : termios) : termios := match tty with Some settings => settings | None => t end.
Definition tcsetattr (tty : option termios) (t : termios) : option termios := match tty with Some _ => Some t | None => None end.

(** terminal.rs:47-62; [!ECHO] has all other bits *)
Definition switch_echo (enable : bool) (tty : option termios) : option termios :=
  let t := tcgetattr tty zeroed in
  let t := mkTermios (c_iflag t) (c_oflag t) (c_cflag t) (if enable then N.lor (c_lflag t) ECHO else N.ldiff (c_lflag t) ECHO)
             (c_line t) (c_cc t) (c_ispeed t) (c_ospeed t) in
  tcsetattr tty t.

(** ui.rs:205-207: the settings after what happened at the terminal *)
Definition terminal_after (tty : option termios) (tr : list event) : option termios :=
  fold_left (fun tty e => match e with Echo on => switch_echo on tty | _ => tty end) tr tty.

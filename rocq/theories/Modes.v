(** Model of the permissions of files (io_streams.rs:124-147: files are opened without a mode of their own; nothing else
    in /repo sets or reads permissions).  Commands and Calls leave them out. *)
From Coq Require Import List NArith Bool.
From Verif Require Import Base CliErrors Text Ui Cli Crypto HeaderCrypto Fs Commands Program Calls.
Import ListNotations.
Local Open Scope N_scope.

(** The permission bits of the inodes. *)
Definition modes := N -> N.
(** open(2), as std calls it: a new file gets 0o666 without the bits of the umask of the process. *)
Definition created_mode (umask : N) : N := N.ldiff 438 umask.

Section WithMask.
Variable umask : N.
Variable entry_of : names.

(** What a call with this answer in the file system [f] does to the permissions: only files that are created get new ones
    (io_streams.rs:128-135); a file that is truncated keeps its own. *)
Definition mode_step (f : fs) (e : syscall) (m : modes) : modes :=
  match e with
  | SCreateNew _ (Ok (WriteNode i)) | SCreateOrTruncate _ (Ok (WriteNode i)) =>
      match f_nodes f i with
      | None => fun j => if j =? i then created_mode umask else m j
      | Some _ => m
      end
  | _ => m
  end.

(** The calls of a run, one after the other ([shared nothing] of Calls, with the permissions). *)
Inductive mode_run : world -> modes -> list syscall -> world -> modes -> Prop :=
| mr_done w m : mode_run w m [] w m
| mr_call e h w m w1 w' m' : takes entry_of e w w1 -> mode_run w1 (mode_step (w_fs w) e m) h w' m' -> mode_run w m (e :: h) w' m'.

(** A command that is carried out (commands/mod.rs), with result [r], or [None] if it is killed before it ends. *)
Definition command_run (lib : crypto_lib) (sha512 : bytes -> bytes) (c : command) (w : world) (m : modes)
    (r : option (outcome cerr unit)) (h : list syscall) (w' : world) (m' : modes) : Prop :=
  run_command_p trace (any_os lib) lib sha512 c (w_ui w) r h (w_ui w') /\ mode_run w m h w' m'.
End WithMask.

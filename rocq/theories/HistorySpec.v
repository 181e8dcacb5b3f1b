(** Specification of what survives any number of commands, some of them interrupted (C87). *)
From Coq.Strings Require Import Byte String.
From Coq Require Import List NArith ZArith Bool.
From Verif Require Import Base Shamir Errors Io Text Util CliErrors Getopts Crypto HeaderCrypto FileCrypto KeyFiles Ui Paths Cli Fs Commands FsSpec.
Import ListNotations.
Local Open Scope N_scope.

(** A consistent file system: every file entry has its inode, which counts at least the entries that lead to it. *)
Definition sound_fs (f : fs) : Prop :=
  (forall s i, f_entries f s = Some (EFile i) -> exists n, f_nodes f i = Some n) /\
  (forall i n l, f_nodes f i = Some n -> NoDup l -> (forall s, In s l -> f_entries f s = Some (EFile i)) -> N.of_nat (length l) <= n_links n).

(** [c] is [b], or is got from it by encrypting and decrypting some number of times. *)
Inductive descends (lib : crypto_lib) : bytes -> bytes -> Prop :=
| d_same b : descends lib b b
| d_next d b b1 c : is_conversion lib d b b1 -> descends lib b1 c -> descends lib b c.

(** The states the file system can have after [f], if rypt is run any number of times without force, each time in any
    directory, with any arguments, terminals and replies, and each run either ends or is stopped at any moment; and if
    in between [others] may happen. *)
Inductive history (lib : crypto_lib) (sha512 : bytes -> bytes) (others : fs -> fs -> Prop) (f : fs) : fs -> Prop :=
| h_start : history lib sha512 others f f
| h_run f1 entry_of files args stdin_is_tty stdout_is_tty stderr_is_tty w status w' g :
    history lib sha512 others f f1 -> w_fs w = f1 -> w_past w = [] -> ~ asked args OForce ->
    main entry_of lib sha512 files args stdin_is_tty stdout_is_tty stderr_is_tty w status w' -> In g (moments w') ->
    history lib sha512 others f g
| h_others f1 g : history lib sha512 others f f1 -> others f1 g -> history lib sha512 others f g.

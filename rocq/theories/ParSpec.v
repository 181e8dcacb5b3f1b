(** Specification of several runs at the same time (C73). *)
From Coq.Strings Require Import Byte String.
From Coq Require Import List NArith ZArith Bool PeanoNat.
From Verif Require Import Base Errors Text CliErrors Crypto HeaderCrypto Ui Paths Cli Fs Commands FsSpec Calls CallSpec.
Import ListNotations.
Local Open Scope N_scope.

(** One run of a command without force: what is asked, the terminal, and the calls it makes, up to its end or to where
    it is killed. *)
Record job := mkJob {
  b_streams : list io_stream; b_policy : cleanup_policy; b_direction : direction_opts;
  b_ui : ui; b_result : option (outcome cerr unit); b_calls : list syscall; b_end : ui }.
Definition is_run (lib : crypto_lib) (j : job) : Prop :=
  crypt_calls lib (b_streams j) (b_policy j) false (b_direction j) (b_ui j) (b_result j) (b_calls j) (b_end j).

(** A consistent file system: entries refer to existing inodes, which count at least the entries that refer to them. *)
Definition consistent (f : fs) : Prop :=
  (forall s i, f_entries f s = Some (EFile i) -> exists n, f_nodes f i = Some n) /\
  (forall i n l, f_nodes f i = Some n -> NoDup l -> l <> [] -> (forall s, In s l -> f_entries f s = Some (EFile i)) -> N.of_nat (length l) <= n_links n).

(** The runs work on different files. *)
Definition apart (entry_of : names) (jobs : list job) : Prop :=
  forall i j a b s, nth_error jobs i = Some a -> nth_error jobs j = Some b -> i <> j ->
    concerns entry_of (b_streams a) s -> ~ concerns entry_of (b_streams b) s.

(** [together entry_of jobs f0 f at_ done]: started with the file system [f0], the runs can have come, in any order of
    their calls and with other processes that leave their files alone, to a point where the file system is [f], run [k]
    finds the world [at_ k] and has made the calls [done k].  (A world has the file system and what is the run's own.) *)
Section Together.
Variable entry_of : names.
Variable jobs : list job.
Variable f0 : fs.
Inductive together : fs -> (nat -> world) -> (nat -> list syscall) -> Prop :=
| tg_start at_ : (forall k, w_fs (at_ k) = f0) -> together f0 at_ (fun _ => [])
| tg_call f at_ done k j e rest w1 :
    together f at_ done -> nth_error jobs k = Some j -> b_calls j = done k ++ e :: rest -> takes entry_of e (at_ k) w1 ->
    together (w_fs w1) (fun i => if Nat.eqb i k then w1 else set_fs (at_ i) (w_fs w1)) (fun i => if Nat.eqb i k then done k ++ [e] else done i)
| tg_other f at_ done g :
    together f at_ done -> consistent g -> (forall j s, In j jobs -> concerns entry_of (b_streams j) s -> intact f g s) ->
    together g (fun i => set_fs (at_ i) g) done.
End Together.

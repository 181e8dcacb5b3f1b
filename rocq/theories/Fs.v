(** Model of the operating system interface that io_streams.rs, commands/crypt.rs and commands/gen_keys.rs use:
    files, directory entries, and computations over them.

    The operating system is not deterministic: every call may also fail, so computations are relations. *)
From Coq.Strings Require Import Byte String.
From Coq Require Import List NArith ZArith Bool.
From Verif Require Import Base Shamir Errors Io HeaderIoSpec Text Util CliErrors Crypto HeaderCrypto Ui Paths Cli.
Import ListNotations.
Local Open Scope N_scope.

(** ** File systems *)

(** What a directory entry can refer to: an inode, a symbolic link to another entry ([None]: to a place in no
    existing directory), or a directory.  Entries and inodes are numbered. *)
Inductive entry := EFile (i : N) | ELink (target : option N) | EDir.
(** An inode: a regular file with its content, or something else (device, pipe, socket), and how many entries
    refer to it. *)
Record node := mkNode { n_regular : bool; n_content : bytes; n_links : N }.
Record fs := mkFs { f_entries : N -> option entry; f_nodes : N -> option node }.

Definition update {A} (f : N -> option A) (k : N) (v : option A) : N -> option A := fun x => if x =? k then v else f x.
Definition set_content (f : fs) (i : N) (b : bytes) : fs :=
  match f_nodes f i with
  | Some n => mkFs (f_entries f) (update (f_nodes f) i (Some (mkNode (n_regular n) b (n_links n))))
  | None => f
  end.
Definition add_file (f : fs) (s i : N) : fs :=
  mkFs (update (f_entries f) s (Some (EFile i))) (update (f_nodes f) i (Some (mkNode true [] 1))).
(** Removing an entry; the inode disappears with the last entry. *)
Definition unlink (f : fs) (s : N) : fs :=
  mkFs (update (f_entries f) s None)
    (match f_entries f s with
     | Some (EFile i) =>
         match f_nodes f i with
         | Some n => update (f_nodes f) i (if n_links n <=? 1 then None else Some (mkNode (n_regular n) (n_content n) (n_links n - 1)))
         | None => f_nodes f
         end
     | _ => f_nodes f
     end).

(** Following symbolic links (at most 40 in Linux): the entry number at the end, or an error. *)
Fixpoint follow (fuel : nat) (f : fs) (s : N) : option N :=
  match f_entries f s with
  | Some (ELink (Some t)) => match fuel with S fuel => follow fuel f t | O => None end
  | Some (ELink None) => None
  | _ => Some s
  end.
Definition max_links : nat := 40.

(** ** Computations *)

(** The state of the program's surroundings.  [w_past] has all earlier states of the file system, the latest first;
    [w_refused] the entries whose removal was refused. *)
Record world := mkWorld { w_fs : fs; w_past : list fs; w_ui : ui; w_stdout : bytes; w_refused : list N }.
Definition set_ui (w : world) (u : ui) : world := mkWorld (w_fs w) (w_past w) u (w_stdout w) (w_refused w).
Definition set_fs (w : world) (f : fs) : world := mkWorld f (w_fs w :: w_past w) (w_ui w) (w_stdout w) (w_refused w).
Definition refuse (w : world) (s : N) : world := mkWorld (w_fs w) (w_past w) (w_ui w) (w_stdout w) (s :: w_refused w).

(** [m w r w']: started in [w], the computation can end with result [r] in [w']. *)
Definition io (A : Type) : Type := world -> outcome cerr A -> world -> Prop.
Definition io_ret {A} (a : A) : io A := fun w r w' => r = Ok a /\ w' = w.
Definition io_lift {A} (x : outcome cerr A) : io A := fun w r w' => r = x /\ w' = w.
Definition io_ui {A} (m : act A) : io A := fun w r w' => r = fst (m (w_ui w)) /\ w' = set_ui w (snd (m (w_ui w))).
Definition io_bind {A B} (m : io A) (f : A -> io B) : io B := fun w r w' =>
  (exists a w1, m w (Ok a) w1 /\ f a w1 r w') \/
  (exists e, m w (Err e) w' /\ r = Err e) \/
  (m w Panic w' /\ r = Panic).
Notation "'let!' p ':=' x 'in' k" := (io_bind x (fun p => k))
  (at level 200, p pattern, x at level 100, k at level 200, right associativity).
(** A closure whose result is inspected; a panic is not caught. *)
Definition io_try {A} (m : io A) : io (outcome cerr A) := fun w r w' =>
  (exists x, x <> Panic /\ m w x w' /\ r = Ok x) \/ (m w Panic w' /\ r = Panic).

(** The entry that a path means, if its directory exists.  This never changes, since the program neither makes nor
    removes directories or links to directories.  [faulty] says that the operating system can also fail for reasons of
    its own: missing permissions, input and output errors, full disks.  [stalls] says that processing can come to a
    halt for more than a second (a slow disk, a slow reader of the output, a suspended process). *)
Record names := mkNames { entry_number :> path -> option N; faulty : bool; stalls : bool }.

Section WithNames.
Variable entry_of : names.
(** A call fails if it is not possible, and else only in a faulty system. *)
Definition fails (possible : Prop) : Prop := faulty entry_of = true \/ ~ possible.

Inductive reader := ReadNode (i : N) | ReadDir | ReadStdin (s : source).
Inductive writer := WriteNode (i : N) | WriteStdout.

(** [OpenOptions::new().read(true).open] (io_streams.rs:29-31) *)
Definition open_read (p : path) : io reader := fun w r w' => w' = w /\
  ((r = Err CIo /\ fails (exists s t e, entry_of p = Some s /\ follow max_links (w_fs w) s = Some t /\ f_entries (w_fs w) t = Some e)) \/
   exists s t, entry_of p = Some s /\ follow max_links (w_fs w) s = Some t /\
     ((exists i, f_entries (w_fs w) t = Some (EFile i) /\ r = Ok (ReadNode i)) \/
      (f_entries (w_fs w) t = Some EDir /\ r = Ok ReadDir))).

(** [fs::symlink_metadata] (io_streams.rs:34): does not follow links at the end. *)
Inductive file_type := FRegular | FSymlink | FDirectory | FOther.
Record metadata := mkMeta { m_type : file_type; m_nlink : N }.
Definition metadata_of (f : fs) (s : N) : option metadata :=
  match f_entries f s with
  | Some (EFile i) =>
      match f_nodes f i with
      | Some n => Some (mkMeta (if n_regular n then FRegular else FOther) (n_links n))
      | None => None
      end
  | Some (ELink _) => Some (mkMeta FSymlink 1)
  | Some EDir => Some (mkMeta FDirectory 2)
  | None => None
  end.
Definition symlink_metadata (p : path) : io metadata := fun w r w' => w' = w /\
  ((r = Err CIo /\ fails (exists s md, entry_of p = Some s /\ metadata_of (w_fs w) s = Some md)) \/
   exists s md, entry_of p = Some s /\ metadata_of (w_fs w) s = Some md /\ r = Ok md).

(** [OpenOptions::new().write(true).create_new(true).open] (io_streams.rs:128-131): a new file with an unused inode,
    only where there is nothing, not even a link. *)
Definition unused (f : fs) (i : N) : Prop := f_nodes f i = None /\ forall t, f_entries f t <> Some (EFile i).
Definition create_new (p : path) : io writer := fun w r w' =>
  (r = Err CIo /\ w' = w /\ fails (exists s i, entry_of p = Some s /\ f_entries (w_fs w) s = None /\ unused (w_fs w) i)) \/
  exists s i, entry_of p = Some s /\ f_entries (w_fs w) s = None /\ unused (w_fs w) i /\
    r = Ok (WriteNode i) /\ w' = set_fs w (add_file (w_fs w) s i).

(** [OpenOptions::new().write(true).truncate(true).create(true).open] (io_streams.rs:128, 132-135) *)
Definition create_or_truncate (p : path) : io writer := fun w r w' =>
  (r = Err CIo /\ w' = w /\ fails (exists s t, entry_of p = Some s /\ follow max_links (w_fs w) s = Some t /\
    ((f_entries (w_fs w) t = None /\ exists i, unused (w_fs w) i) \/ exists i n, f_entries (w_fs w) t = Some (EFile i) /\ f_nodes (w_fs w) i = Some n))) \/
  exists s t i, entry_of p = Some s /\ follow max_links (w_fs w) s = Some t /\ r = Ok (WriteNode i) /\
    ((f_entries (w_fs w) t = None /\ unused (w_fs w) i /\
      w' = set_fs w (add_file (w_fs w) t i)) \/
     (exists n, f_entries (w_fs w) t = Some (EFile i) /\ f_nodes (w_fs w) i = Some n /\
      w' = if n_regular n then set_fs w (set_content (w_fs w) i []) else w)).

(** [fs::remove_file] (io_streams.rs:75, 155): removes a file or a link, not what the link refers to.  A refusal of
    the operating system is noted. *)
Definition remove_file (p : path) : io unit := fun w r w' =>
  match entry_of p with
  | Some s =>
      match f_entries (w_fs w) s with
      | None => r = Err CIo /\ w' = w
      | Some EDir => r = Err CIo /\ w' = w
      | Some _ => (faulty entry_of = true /\ r = Err CIo /\ w' = refuse w s) \/ (r = Ok tt /\ w' = set_fs w (unlink (w_fs w) s))
      end
  | None => r = Err CIo /\ w' = w
  end.

(** Reading a file to the end delivers its content, in any pieces, unless there is an error on the way; reading a
    device or a file while it is written delivers anything, reading a directory an error. *)
Definition provides (f : fs) (rd : reader) (wr : writer) (src : source) : Prop :=
  match rd with
  | ReadNode i =>
      match f_nodes f i with
      | Some n =>
          n_regular n = true -> wr <> WriteNode i ->
          if ends_in_error src then faulty entry_of = true /\ exists rest, n_content n = flat src ++ rest else flat src = n_content n
      | None => True
      end
  | ReadDir => src = [RError]
  | ReadStdin s => src = s
  end.

(** Writing [d], byte by byte. *)
Definition write_out (wr : writer) (d : bytes) (w : world) : world :=
  match wr with
  | WriteNode i =>
      match f_nodes (w_fs w) i with
      | Some n =>
          if n_regular n then
            fold_left (fun w k => set_fs w (set_content (w_fs w) i (n_content n ++ firstn k d))) (seq 1 (length d)) w
          else w
      | None => w
      end
  | WriteStdout => mkWorld (w_fs w) (w_past w) (w_ui w) (w_stdout w ++ d) (w_refused w)
  end.

End WithNames.

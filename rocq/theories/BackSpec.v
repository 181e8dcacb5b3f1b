(** Specification of a file system that is as before (C57). *)
From Coq.Strings Require Import Byte String.
From Coq Require Import List NArith ZArith Bool.
From Verif Require Import Base Errors Io Text Util CliErrors Crypto HeaderCrypto Ui Paths Cli Fs FsSpec.
Import ListNotations.
Local Open Scope N_scope.

(** The same entries; ordinary files have the same content, perhaps in other inodes; all else is untouched. *)
Definition as_before (f g : fs) : Prop :=
  forall s, (f_entries f s = None -> f_entries g s = None) /\ (forall b, plain_file f s b -> plain_file g s b) /\
    (f_entries f s <> None -> (forall b, ~ plain_file f s b) -> intact f g s).

(** The streams that convert the files [p] to the files [q]. *)
Definition conversions (l : list (path * path)) : list io_stream := map (fun x => mkStream (IFile (fst x)) (Ok (OFile (snd x)))) l.

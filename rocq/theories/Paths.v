(** Model of the parts of [std::path] (Unix) that cli/io_streams.rs and cli/key_management.rs use.

    A path is the list of its components, which is what std compares; how often a slash is repeated is lost, and so
    is a slash at the end. *)
From Coq.Strings Require Import Byte String.
From Coq Require Import List NArith Bool.
From Verif Require Import Base Text Util.
Import ListNotations.
Local Open Scope N_scope.

(** [std::path::Component] *)
Inductive component := RootDir | CurDir | ParentDir | Normal (name : text).
Notation path := (list component).

(** [str::split('/')] *)
Fixpoint split_slash (t : text) : list text :=
  match t with
  | [] => [[]]
  | c :: t =>
      if c =? 47 then [] :: split_slash t
      else match split_slash t with w :: ws => (c :: w) :: ws | [] => [[c]] end
  end.
(** One piece between slashes; only a dot at the very beginning is kept. *)
Definition piece (w : text) : list component :=
  match w with
  | [] | [46] => []
  | [46; 46] => [ParentDir]
  | _ => [Normal w]
  end.
(** [Path::components] *)
Definition components (t : text) : path :=
  match t with
  | 47 :: _ => RootDir :: flat_map piece (split_slash t)
  | _ =>
      match split_slash t with
      | [46] :: ws => CurDir :: flat_map piece ws
      | ws => flat_map piece ws
      end
  end.

(** [PathBuf::push] of a relative name *)
Definition push (p : path) (name : text) : path :=
  match p with [] => components name | _ => p ++ flat_map piece (split_slash name) end.

(** The last component and what is before it. *)
Fixpoint split_last (p : path) : option (path * component) :=
  match p with
  | [] => None
  | c :: p' => match split_last p' with Some (d, l) => Some (c :: d, l) | None => Some ([], c) end
  end.
(** [Path::file_name], with [Path::parent] *)
Definition file_name (p : path) : option (path * text) :=
  match split_last p with Some (d, Normal n) => Some (d, n) | _ => None end.

(** [rsplitn(2, '.')]: the part before the last dot, if there is one, and the part after it *)
Fixpoint rsplit_dot (n : text) : option text * text :=
  match n with
  | [] => (None, [])
  | c :: n' =>
      match rsplit_dot n' with
      | (Some before, after) => (Some (c :: before), after)
      | (None, after) => if c =? 46 then (Some [], after) else (None, c :: after)
      end
  end.
(** [split_file_at_dot] of std: file_stem and extension *)
Definition stem_and_extension (n : text) : text * option text :=
  match rsplit_dot n with
  | (None, _) => (n, None)
  | (Some [], _) => (n, None)
  | (Some before, after) => (before, Some after)
  end.

(** [Path::extension] *)
Definition extension (p : path) : option text :=
  match file_name p with Some (_, n) => snd (stem_and_extension n) | None => None end.
(** [Path::with_extension] *)
Definition with_extension (p : path) (ext : text) : path :=
  match file_name p with
  | None => p
  | Some (d, n) =>
      let stem := fst (stem_and_extension n) in
      push d (match ext with [] => stem | _ => stem ++ [46] ++ ext end)
  end.

(** Model of the option table cli/options.rs and of [getopts::Options::parse].

    The parser belongs to the crate getopts (0.2.21 in /repo/Cargo.lock), whose source is not part of /repo; it is
    modelled from its documented behaviour with its default settings.  Arguments that are not valid Unicode, which
    it refuses, are left out. *)
From Coq.Strings Require Import Byte String.
From Coq Require Import List NArith Bool PeanoNat.
From Verif Require Import Base Text Util CliErrors.
Import ListNotations.
Local Open Scope N_scope.

(** cli/options.rs:5-139, in the order of the file. *)
Inductive opt :=
| OEncrypt | ODecrypt | OGenKeypair | OHelp | OVersion
| OVerbose | OQuiet | OForce
| OFast | OKeepInputs | ODiscardInputs | OStream | OSuffix
| OPassword | OPasswordNamed | OPasswordFile | OPublicKey | OPublicKeyText | OPrivateKey | OSymmetricKey
| OKeyThreshold | ORequireAllKeys | OKeyShares | OStartGroup | OEndGroup.

Definition all_opts : list opt :=
  [OEncrypt; ODecrypt; OGenKeypair; OHelp; OVersion; OVerbose; OQuiet; OForce;
   OFast; OKeepInputs; ODiscardInputs; OStream; OSuffix;
   OPassword; OPasswordNamed; OPasswordFile; OPublicKey; OPublicKeyText; OPrivateKey; OSymmetricKey;
   OKeyThreshold; ORequireAllKeys; OKeyShares; OStartGroup; OEndGroup].

Definition opt_eq_dec (a b : opt) : {a = b} + {a <> b}.
Proof. decide equality. Defined.
Definition opt_eqb (a b : opt) : bool := if opt_eq_dec a b then true else false.

(** The short names of cli/options.rs. *)
Definition short (o : opt) : option char :=
  match o with
  | OEncrypt => Some 101 | ODecrypt => Some 100 | OGenKeypair => Some 103 | OHelp => Some 104 | OVersion => Some 86
  | OVerbose => Some 118 | OQuiet => Some 113 | OForce => Some 102
  | OKeepInputs => Some 75 | ODiscardInputs => Some 68 | OStream => Some 115 | OSuffix => Some 83
  | OPassword => Some 112 | OKeyThreshold => Some 116 | ORequireAllKeys => Some 97
  | OStartGroup => Some 40 | OEndGroup => Some 41
  | _ => None
  end.
(** The long names of cli/options.rs. *)
Definition long (o : opt) : text :=
  lit match o with
  | OEncrypt => "encrypt" | ODecrypt => "decrypt" | OGenKeypair => "gen-keypair" | OHelp => "help" | OVersion => "version"
  | OVerbose => "verbose" | OQuiet => "quiet" | OForce => "force"
  | OFast => "fast" | OKeepInputs => "keep-inputs" | ODiscardInputs => "discard-inputs" | OStream => "stream" | OSuffix => "suffix"
  | OPassword => "password" | OPasswordNamed => "password-named" | OPasswordFile => "password-file"
  | OPublicKey => "public-key" | OPublicKeyText => "public-key-text" | OPrivateKey => "private-key" | OSymmetricKey => "symmetric-key"
  | OKeyThreshold => "key-threshold" | ORequireAllKeys => "require-all-keys" | OKeyShares => "key-shares"
  | OStartGroup => "start-group" | OEndGroup => "end-group"
  end.
(** optopt and optmulti take a value; optflag and optflagmulti do not. *)
Definition has_value (o : opt) : bool :=
  match o with
  | OSuffix | OPasswordNamed | OPasswordFile | OPublicKey | OPublicKeyText | OPrivateKey | OSymmetricKey
  | OKeyThreshold | OKeyShares => true
  | _ => false
  end.
(** optmulti and optflagmulti may be repeated. *)
Definition may_repeat (o : opt) : bool :=
  match o with
  | OVerbose | OQuiet | OPassword | OPasswordNamed | OPasswordFile | OPublicKey | OPublicKeyText | OPrivateKey
  | OSymmetricKey | OKeyThreshold | ORequireAllKeys | OKeyShares | OStartGroup | OEndGroup => true
  | _ => false
  end.

(** An option found on the command line: the number of the argument it was found in, the option, its value. *)
Record occurrence := mkOcc { o_pos : nat; o_opt : opt; o_val : option text }.
(** [getopts::Matches]: all options in the order in which they were found, and the other arguments. *)
Record opt_matches := mkMatches { m_occs : list occurrence; m_free : list text }.

Definition find_short (c : char) : option opt :=
  find (fun o => match short o with Some d => c =? d | None => false end) all_opts.
Definition find_long (t : text) : option opt := find (fun o => text_eqb (long o) t) all_opts.
(** A name of one character is short even after two dashes. *)
Definition find_name (t : text) : option opt :=
  match t with [c] => find_short c | _ => find_long t end.

(** The characters after a single dash: the flags found, and possibly a final option with a value and what is
    left of the argument. *)
Fixpoint cluster (pos : nat) (cs : text) : outcome cerr (list occurrence * option (opt * text)) :=
  match cs with
  | [] => Ok ([], None)
  | c :: cs =>
      match find_short c with
      | None => Err CUnrecognizedOption
      | Some o =>
          if has_value o then Ok ([], Some (o, cs))
          else let* (occs, last) := cluster pos cs in Ok (mkOcc pos o None :: occs, last)
      end
  end.

(** The name and the value of --name=value. *)
Fixpoint split_equals (t : text) : text * option text :=
  match t with
  | [] => ([], None)
  | c :: t' => if c =? 61 then ([], Some t') else let '(n, v) := split_equals t' in (c :: n, v)
  end.

(** The loop over the arguments. *)
Fixpoint parse_args (pos : nat) (args : list text) : outcome cerr opt_matches :=
  match args with
  | [] => Ok (mkMatches [] [])
  | cur :: args =>
      let add occs (rest : outcome cerr opt_matches) :=
        let* m := rest in Ok (mkMatches (occs ++ m_occs m) (m_free m)) in
      match cur with
      | 45 :: 45 :: [] => Ok (mkMatches [] args)
      | 45 :: 45 :: tail =>
          let '(name, value) := split_equals tail in
          match find_name name with
          | None => Err CUnrecognizedOption
          | Some o =>
              if has_value o then
                match value with
                | Some v => add [mkOcc pos o (Some v)] (parse_args (S pos) args)
                | None =>
                    match args with
                    | v :: args => add [mkOcc pos o (Some v)] (parse_args (S pos) args)
                    | [] => Err CArgumentMissing
                    end
                end
              else
                match value with
                | Some _ => Err CUnexpectedArgument
                | None => add [mkOcc pos o None] (parse_args (S pos) args)
                end
          end
      | 45 :: c :: cs =>
          let* (occs, last) := cluster pos (c :: cs) in
          match last with
          | None => add occs (parse_args (S pos) args)
          | Some (o, []) =>
              match args with
              | v :: args => add (occs ++ [mkOcc pos o (Some v)]) (parse_args (S pos) args)
              | [] => Err CArgumentMissing
              end
          | Some (o, v) => add (occs ++ [mkOcc pos o (Some v)]) (parse_args (S pos) args)
          end
      | _ => let* m := parse_args (S pos) args in Ok (mkMatches (m_occs m) (cur :: m_free m))
      end
  end.

Definition occs_of (m : opt_matches) (o : opt) : list occurrence := filter (fun x => opt_eqb (o_opt x) o) (m_occs m).
(** [opt_count], [opt_present], [opt_positions], [opt_strs_pos], [opt_str] of getopts. *)
Definition opt_count (m : opt_matches) (o : opt) : N := lenN (occs_of m o).
Definition opt_present (m : opt_matches) (o : opt) : bool := match occs_of m o with [] => false | _ => true end.
Definition opt_positions (m : opt_matches) (o : opt) : list nat := map o_pos (occs_of m o).
Definition opt_strs_pos (m : opt_matches) (o : opt) : list (nat * text) :=
  flat_map (fun x => match o_val x with Some v => [(o_pos x, v)] | None => [] end) (occs_of m o).
Definition opt_str (m : opt_matches) (o : opt) : option text :=
  match opt_strs_pos m o with (_, v) :: _ => Some v | [] => None end.

(** options.rs:140-148 and [Options::parse]. *)
Definition parse_options (args : list text) : outcome cerr opt_matches :=
  let* m := parse_args 0 args in
  let* _ := ensure (forallb (fun o => may_repeat o || (opt_count m o <=? 1)) all_opts) COptionDuplicated in
  Ok m.

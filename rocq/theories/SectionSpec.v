(** Specification of how the terminal output of a run is divided (C85): one section per file or key pair. *)
From Coq.Strings Require Import Byte String.
From Coq Require Import List NArith ZArith Bool.
From Verif Require Import Base Text Util CliErrors UtilSpec Crypto HeaderCrypto Ui UiSpec Paths Cli Fs FsSpec Commands.
Import ListNotations.
Local Open Scope N_scope.

(** How the ends of a conversion are called. *)
Definition from_name (i : input_stream) (t : text) : Prop :=
  match i with IFile p | IFileStream p => t = path_text p | IStdin => t = lit "(stdin)" end.
Definition to_name (o : outcome cerr output_stream) (t : text) : Prop :=
  match o with Ok (OFile p) => t = path_text p | Ok OStdout => t = lit "(stdout)" | _ => t = lit "(error)" end.

(** "[a] -> [b] (3/7)" for the third of seven. *)
Definition heading (i n : nat) (s : io_stream) (t : text) : Prop := exists a b number total,
  from_name (s_input s) a /\ to_name (s_output s) b /\
  denotes number (N.of_nat i + 1) /\ denotes total (N.of_nat n) /\
  t = a ++ lit " -> " ++ b ++ lit " (" ++ number ++ lit "/" ++ total ++ lit ")".

(** The section of the [i]-th of [n] files (from 0): the heading, progress, errors and an empty line.  There are no
    errors if the file was converted, one if not, and two if in addition its unfinished output could not be removed,
    which is not said with force. *)
Definition section (force : bool) (i n : nat) (s : io_stream) (errors : list cerr) (l : list message) : Prop :=
  (length errors <= if force then 1 else 2)%nat /\
  exists t lines, heading i n s t /\ l = MLine t :: repeat MProgress lines ++ map MError errors ++ [MLine []].

(** What the sections say about a run from [w] to [w'] is so.  A file without an error is converted: the output is new
    and has the conversion of what the original had.  The original of a file with an error is untouched (unless it was
    also to be converted to another file, which worked).  After exactly one error there is no unfinished output. *)
Definition truthful (entry_of : names) (lib : crypto_lib) (streams : list io_stream) (d : direction_opts) (parts : list (list cerr * list message)) (w w' : world) : Prop :=
  forall i s part, nth_error streams i = Some s -> nth_error parts i = Some part ->
    (fst part = [] -> s_output s = Ok OStdout \/ exists q t b, s_output s = Ok (OFile q) /\ entry_of q = Some t /\ f_entries (w_fs w) t = None /\
       (separate entry_of streams -> has_conversion entry_of lib d b (w_fs w') q) /\
       (forall p, s_input s = IFile p -> exists x, entry_of p = Some x /\ (f_entries (w_fs w) x <> None -> plain_file (w_fs w) x b))) /\
    (fst part <> [] -> forall p x, s_input s = IFile p -> entry_of p = Some x -> f_entries (w_fs w) x <> None ->
       intact (w_fs w) (w_fs w') x \/ exists j s' part' p', j <> i /\ nth_error streams j = Some s' /\ nth_error parts j = Some part' /\ fst part' = [] /\
         s_input s' = IFile p' /\ entry_of p' = Some x) /\
    (length (fst part) = 1%nat -> distinct_outputs entry_of streams -> forall q t, s_output s = Ok (OFile q) -> entry_of q = Some t ->
       f_entries (w_fs w) t = None -> f_entries (w_fs w') t = None).

(** After the sections: the question whether to remove the originals, and errors. *)
Definition closing (m : message) : Prop :=
  m = MPrompt (lit "Remove original file(s)? [y/N]: ") \/ m = MLine (lit "Invalid input, please enter 'y' or 'n'.") \/
  exists e, m = MError e.

(** The section of the [i]-th of [n] key pairs with the hexadecimal public key [key]: the key, the names of the files as
    far as it came, an error if it failed, and an empty line. *)
Definition private_name (o : output_stream) (t : text) : Prop :=
  match o with OFile p => t = path_text p | OStdout => t = lit "(stdout)" end.
Definition key_section (i n : nat) (ks : key_streams) (key : text) (errors : list cerr) (l : list message) : Prop :=
  (length errors <= 1)%nat /\ exists number total name,
    denotes number (N.of_nat i + 1) /\ denotes total (N.of_nat n) /\ private_name (k_private ks) name /\
    let public := match k_public ks with Some p => [MLine (lit "    Public key file: " ++ path_text p)] | None => [] end in
    exists shown,
      l = MLine (lit "Keypair " ++ number ++ lit "/" ++ total ++ lit ":") :: MLine (lit "    Public key: " ++ key) ::
          shown ++ map MError errors ++ [MLine []] /\
      (shown = public ++ [MLine (lit "    Private key file: " ++ name)] \/ (errors <> [] /\ k_public ks <> None /\ shown = public)).

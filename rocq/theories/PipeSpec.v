(** Specification of the program as a filter, and of several passwords with a threshold (C80). *)
From Coq.Strings Require Import Byte String.
From Coq Require Import List NArith ZArith Bool.
From Verif Require Import Base Shamir Errors Io HeaderIoSpec Text TextProofs Util CliErrors Crypto HeaderCrypto CredSpec Getopts Ui UiSpec Paths PathSpec CliCreds Cli CliSpec OptSpec CmdSpec Fs Commands FsSpec FlowSpec.
Import ListNotations.
Local Open Scope N_scope.

(** A successful run of the program with these arguments, that mean these options and names, writing to the standard
    output.  (Without arguments and with a terminal as standard output the program only shows its help.) *)
Definition filters (entry_of : names) (lib : crypto_lib) (sha512 : bytes -> bytes) (args : list text) (occs : list occurrence)
    (free : list text) (w w' : world) : Prop :=
  means 0 args occs free /\ to_stdout occs free /\
  exists stdin_is_tty stdout_is_tty stderr_is_tty, ~ (args = [] /\ stdout_is_tty = true) /\
    main entry_of lib sha512 (files_in entry_of (w_fs w)) args stdin_is_tty stdout_is_tty stderr_is_tty w 0 w'.

(** What is there to convert: the rest of the standard input, or the named file. *)
Definition supplied (entry_of : names) (f : fs) (rest : source) (free : list text) (b : bytes) : Prop :=
  ((free = [] \/ free = [lit "-"]) /\ b = flat rest) \/
  (exists a, free = [a] /\ a <> lit "-" /\ content entry_of f (components a) = Some b).

(** The lines of a password file, without white space at both ends; without the lines that are empty then. *)
Definition white (c : N) : Prop :=
  In c [9; 10; 11; 12; 13; 32; 133; 160; 5760; 8192; 8193; 8194; 8195; 8196; 8197; 8198; 8199; 8200; 8201; 8202; 8232; 8233; 8239; 8287; 12288].
Inductive line_word : list N -> list (list N) -> Prop :=
| lw_blank l : Forall white l -> line_word l []
| lw_one a c b : Forall white a -> Forall white b -> ~ white c -> line_word (a ++ [c] ++ b) [[c]]
| lw_word a c m d b : Forall white a -> Forall white b -> ~ white c -> ~ white d -> line_word (a ++ (c :: m ++ [d]) ++ b) [c :: m ++ [d]].
Inductive line_words : list N -> list (list N) -> Prop :=
| lws_none : line_words [] []
| lws_last l ws : ~ In 10 l -> line_word l ws -> line_words l ws
| lws_line l ws t ws' : ~ In 10 l -> line_word l ws -> line_words t ws' -> line_words (l ++ [10] ++ t) (ws ++ ws').
Definition file_passwords (b : bytes) (ps : list bytes) : Prop :=
  exists t ws, Forall scalar t /\ b = utf8 t /\ line_words t ws /\ ps = map utf8 ws.

(** The passwords that the options provide, in order: typed ones (each of them [twice], while the standard input goes from
    one source to another) and those in files. *)
Inductive provides_passwords (files : text -> option bytes) (twice : bool) : source -> list occurrence -> source -> list bytes -> Prop :=
| pp_none s : provides_passwords files twice s [] s []
| pp_typed s rs s1 p x occs s' ps : In (o_opt x) [OPassword; OPasswordNamed] -> replies s rs s1 -> accepts twice rs p ->
    provides_passwords files twice s1 occs s' ps -> provides_passwords files twice s (x :: occs) s' (utf8 p :: ps)
| pp_file s x v b qs occs s' ps : o_opt x = OPasswordFile -> o_val x = Some v -> files v = Some b -> file_passwords b qs ->
    provides_passwords files twice s occs s' ps -> provides_passwords files twice s (x :: occs) s' (qs ++ ps)
| pp_other s x occs s' ps : ~ In (o_opt x) [OPassword; OPasswordNamed; OPasswordFile] ->
    provides_passwords files twice s occs s' ps -> provides_passwords files twice s (x :: occs) s' ps.
(** Without options about keys there is one typed password. *)
Definition given_passwords (files : text -> option bytes) (twice : bool) (s : source) (occs : list occurrence) (s' : source) (ps : list bytes) : Prop :=
  (no_key occs /\ exists rs p, replies s rs s' /\ accepts twice rs p /\ ps = [utf8 p]) \/
  ((exists o, key_option o /\ given o occs) /\ provides_passwords files twice s occs s' ps).

(** All keys are passwords, and each of them counts once. *)
Definition only_passwords (occs : list occurrence) : Prop :=
  forall o, given o occs -> ~ In o [OPublicKey; OPublicKeyText; OPrivateKey; OSymmetricKey; OKeyShares; OStartGroup; OEndGroup].
(** How many of [n] keys are needed. *)
Definition how_many (occs : list occurrence) (n k : N) : Prop :=
  (forall v, given_value OKeyThreshold v occs -> decimal v k) /\
  (given ORequireAllKeys occs -> k = n) /\
  (~ given OKeyThreshold occs -> ~ given ORequireAllKeys occs -> k = 1).
(** [k] of the passwords [ps] are among [qs]. *)
Definition enough (k : N) (ps qs : list bytes) : Prop :=
  exists some, selection some ps /\ k <= lenN some /\ forall p, In p some -> In p qs.

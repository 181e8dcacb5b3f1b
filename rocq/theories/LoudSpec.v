(** What C77 says about -v and -q: command lines that differ in nothing else, and what they may change. *)
From Coq.Strings Require Import Byte String.
From Coq Require Import List NArith ZArith Bool.
From Verif Require Import Base Text Util CliErrors Getopts Ui Fs OptSpec CmdSpec QuietSpec.
Import ListNotations.
Local Open Scope N_scope.

(** An argument with nothing but -v and -q: --verbose, --quiet, -v, -q, -vv, -vq and so on. *)
Definition loudness (a : text) : Prop :=
  a = lit "--verbose" \/ a = lit "--quiet" \/
  exists letters, letters <> [] /\ Forall (fun c => [c] = lit "v" \/ [c] = lit "q") letters /\ a = lit "-" ++ letters.

(** [without_loudness args base]: [base] is what remains of the command line [args] if some arguments with nothing
    but -v and -q are taken away.  Values of options and arguments after [--] are not touched. *)
Inductive without_loudness : list text -> list text -> Prop :=
| wl_end : without_loudness [] []
| wl_stop rest : without_loudness (lit "--" :: rest) (lit "--" :: rest)
| wl_item pos args o f rest base : item pos args o f -> without_loudness rest base -> without_loudness (args ++ rest) (args ++ base)
| wl_drop a rest base : loudness a -> without_loudness rest base -> without_loudness (a :: rest) base.

(** The line can be read, and is not silenced altogether or refused for too many -v or -q. *)
Definition audible (args : list text) : Prop :=
  exists occs free, means 0 args occs free /\ (-2 <= quietness occs <= 1)%Z.

(** It is settled what becomes of the originals: the line says so, or makes keys, or there is nobody to ask. *)
Definition settled (base : list text) (u : ui) : Prop :=
  u_input_is_tty u = false \/ u_output_is_tty u = false \/
  exists occs free, means 0 base occs free /\
    (given OKeepInputs occs \/ given ODiscardInputs occs \/
     given OGenKeypair occs /\ ~ given OEncrypt occs /\ ~ given ODecrypt occs).

(** The same files, now and at every moment before, the same output, and the same input left over. *)
Definition same_effect (w w' : world) : Prop :=
  w_fs w = w_fs w' /\ w_past w = w_past w' /\ w_stdout w = w_stdout w' /\ w_refused w = w_refused w' /\
  u_input (w_ui w) = u_input (w_ui w').

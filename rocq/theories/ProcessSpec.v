(** Specification of when the standard streams carry data, and of the environment (C86). *)
From Coq.Strings Require Import Byte String.
From Coq Require Import List NArith Bool.
From Verif Require Import Base Io Text Util CliErrors TextProofs Getopts Crypto HeaderCrypto Ui CliCreds Paths Cli PathSpec OptSpec CmdSpec Process.
Import ListNotations.
Local Open Scope N_scope.

(** The option that decides what is done: there is no later one, or there is none and the program encrypts. *)
Definition decided (occs : list occurrence) (mode : operation_mode) : Prop :=
  (mode = MCrypt Encrypt /\ forall x, In x occs -> mode_of (o_opt x) = None) \/
  exists x, In x occs /\ mode_of (o_opt x) = Some mode /\ forall y, In y occs -> mode_of (o_opt y) <> None -> (o_pos y <= o_pos x)%nat.
(** The data of the standard input is asked for: no file is named, or a dash. *)
Definition names_stdin (free : list text) : Prop := free = [] \/ free = [lit "-"].

(** Bytes that are the encoding of a text. *)
Definition encodes_text (b : bytes) : Prop := exists t, Forall scalar t /\ b = utf8 t.
(** The variable is set to a text. *)
Definition set_to_text (p : invocation) (name : string) : Prop := exists v, p_variable p (lit name) = Some v /\ encodes_text v.

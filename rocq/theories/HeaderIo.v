(** Model of [src/header_io.rs]: file framing. *)
From Coq Require Import List NArith Bool.
From Coq.Strings Require Import Byte.
From Verif Require Import Base Shamir Errors Io.
Import ListNotations.
Local Open Scope N_scope.

(** header_io.rs:6 *)
Definition MAX_HEADER_LEN : N := 16777216.
(** header_io.rs:8, ASCII "rypt". *)
Definition FILE_SIGNATURE : bytes := [x72; x79; x70; x74].
(** header_io.rs:9 *)
Definition FILE_ALIGNMENT : N := 8.
(** header_io.rs:10 *)
Definition PREHEADER_LEN : nat := 8.

(** header_io.rs:15-20 *)
Definition padding_len (len alignment : N) : N :=
  if len mod alignment =? 0 then 0 else alignment - len mod alignment.

(** header_io.rs:35-65 [read_header]; also returns the rest of the source. *)
Definition read_header (s : source) : outcome err (bytes * N * source) :=
  let* (pre_header, s) := read_exact PREHEADER_LEN s in
  let file_signature := firstn 4 pre_header in
  let header_len_bytes := skipn 4 pre_header in
  let* _ := ensure (bytes_eqb file_signature FILE_SIGNATURE) EBadSignature in
  let header_len := le_value header_len_bytes in
  let* _ := ensure (0 <? header_len) EHeaderEmpty in
  let* _ := ensure (header_len <=? MAX_HEADER_LEN) EHeaderTooLarge in
  let header_padding := padding_len header_len FILE_ALIGNMENT in
  let* _ := assert ((header_len + header_padding) mod FILE_ALIGNMENT =? 0) in
  let* (buffer, s) := read_exact (N.to_nat (header_len + header_padding)) s in
  let* _ := ensure (forallb (fun b => beqb b x00) (skipn (N.to_nat header_len) buffer)) EHeaderPadding in
  Ok (firstn (N.to_nat header_len) buffer, N.of_nat PREHEADER_LEN + header_len + header_padding, s).

(** header_io.rs:67-93 [write_header]: result and final state of the sink. *)
Definition write_header (w : sink) (serialized_header : bytes) : outcome err unit * sink :=
  let header_len := lenN serialized_header in
  if negb (header_len <=? MAX_HEADER_LEN) then (Err EHeaderTooLarge, w)
  else
    let pre_header := FILE_SIGNATURE ++ le_bytes 4 header_len in
    match write_all w pre_header with
    | (Ok _, w) =>
        match write_all w serialized_header with
        | (Ok _, w) =>
            let header_padding := padding_len header_len FILE_ALIGNMENT in
            if 0 <? header_padding
            then write_all w (repeat x00 (N.to_nat header_padding))
            else (Ok tt, w)
        | r => r
        end
    | r => r
    end.

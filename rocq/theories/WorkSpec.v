(** What C78 counts. *)
From Coq.Strings Require Import Byte String.
From Coq Require Import List NArith Bool.
From Verif Require Import Base Crypto Proto HeaderCrypto Work.
Import ListNotations.

(** The passwords among credentials, and the passwords that are stretched by the slow key derivation function. *)
Fixpoint passwords (l : list cred) : list bytes :=
  match l with [] => [] | Password p :: l => p :: passwords l | _ :: l => passwords l end.
Fixpoint stretched (l : list request) : list bytes :=
  match l with [] => [] | AskKdf p _ :: l => p :: stretched l | _ :: l => stretched l end.
(** How many ciphertexts are tried, and how many bytes they have. *)
Fixpoint attempts (l : list request) : nat :=
  match l with
  | [] => 0
  | (AskAeadOpen _ _ _ _ _ | AskBoxOpen _ _ _ _) :: l => S (attempts l)
  | _ :: l => attempts l
  end.
Fixpoint attempted_bytes (l : list request) : nat :=
  match l with
  | [] => 0
  | (AskAeadOpen c _ _ _ t | AskBoxOpen c _ _ t) :: l => length c + length t + attempted_bytes l
  | _ :: l => attempted_bytes l
  end.

(** How deep groups are nested: a group of ciphertexts has depth one. *)
Fixpoint depth (d : kdata) : nat :=
  match d with
  | KNone | KEnc _ => 0
  | KComp _ parts => S (fold_right max 0 (map (fun p => depth (snd p)) parts))
  end.
Definition header_depth (h : header) : nat :=
  match hd_payload_key h with Some (t, parts) => depth (KComp t parts) | None => 0 end.

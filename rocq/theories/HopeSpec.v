(** Specification: contents that a run cannot convert (C95). *)
From Coq Require Import List NArith.
From Verif Require Import Base Io HeaderIo HeaderIoSpec Crypto HeaderCrypto CredSpec Cli Fs Commands FsSpec.

(** No conversion of the content [b] exists. *)
Definition hopeless (lib : crypto_lib) (d : direction_opts) (b : bytes) : Prop := forall c, ~ is_conversion lib d b c.

(** The files that were there are untouched at every moment, and afterwards there are no others, but for those whose
    removal the system refused. *)
Definition untouched (w w' : world) : Prop :=
  forall g s, In g (moments w') -> f_entries (w_fs w) s <> None -> intact (w_fs w) g s.
Definition nothing_new (w w' : world) : Prop :=
  forall t, f_entries (w_fs w') t <> None -> f_entries (w_fs w) t <> None \/ In t (w_refused w').

(** The keys [D] do not open the header of [b], if there is one. *)
Definition unopenable (lib : crypto_lib) (D : list cred) (b : bytes) : Prop :=
  forall h x, (1 <= lenN h <= MAX_HEADER_LEN)%N -> begins_with_header h b -> decrypt_header lib h D <> Ok x.

(** Specification of the credential arguments (C36, C37, C48). *)
From Coq.Strings Require Import Byte String.
From Coq Require Import List NArith Bool PeanoNat.
From Verif Require Import Base Text Util CliErrors Getopts Crypto HeaderCrypto CredSpec KeyFiles Ui CliCreds.
Import ListNotations.
Local Open Scope N_scope.

(** ** Credential expressions and how they are spelled *)

(** A key argument: it provides credentials. *)
Definition key_token (t : token) : Prop :=
  match t with
  | InteractivePassword | NamedInteractivePassword _ | PasswordFile _ | SymmetricKeyFile _
  | PublicKeyFile _ | PublicKeyText _ | PrivateKeyFile _ => True
  | _ => False
  end.

(** A group: its members with their number of shares, in order; its threshold if one is given. *)
Inductive expr := Group (th : option threshold_type) (members : members)
with members :=
| MNil
| MKey (shares : N) (t : token) (rest : members)
| MGroup (shares : N) (e : expr) (rest : members).

(** [spells top th m ts]: the arguments [ts] spell the members [m] and the threshold [th].  The threshold may
    stand anywhere in its group.  Two oddities: --key-shares 1 may stand anywhere, and outside of all groups
    ([top]) a last --key-shares without a key is allowed. *)
Inductive spells : bool -> option threshold_type -> members -> list token -> Prop :=
| sp_nil top : spells top None MNil []
| sp_key top th m ts t : key_token t -> spells top th m ts -> spells top th (MKey 1 t m) (t :: ts)
| sp_key_shares top th m ts n t : 1 < n -> key_token t -> spells top th m ts ->
    spells top th (MKey n t m) (KeyShares n :: t :: ts)
| sp_group top th m ts th' m' ts' : spells false th' m' ts' -> spells top th m ts ->
    spells top th (MGroup 1 (Group th' m') m) (StartGroup :: ts' ++ EndGroup :: ts)
| sp_group_shares top th m ts n th' m' ts' : 1 < n -> spells false th' m' ts' -> spells top th m ts ->
    spells top th (MGroup n (Group th' m') m) (KeyShares n :: StartGroup :: ts' ++ EndGroup :: ts)
| sp_all top m ts : spells top None m ts -> spells top (Some AllKeys) m (RequireAllKeys :: ts)
| sp_threshold top m ts n : spells top None m ts -> spells top (Some (Threshold n)) m (KeyThreshold n :: ts)
| sp_one_share top th m ts : spells top th m ts -> spells top th m (KeyShares 1 :: ts)
| sp_trailing n : 1 < n -> spells true None MNil [KeyShares n].

(** The number of shares needed. *)
Definition needed (th : option threshold_type) (total : N) : N :=
  match th with None => 1 | Some (Threshold n) => n | Some AllKeys => total end.

Section WithEnvironment.
Variable sha512 : bytes -> bytes.
Variable files : text -> option bytes.

(** The credential an expression stands for, when the keys are read in order (the state of the terminal changes
    from [u] to [u']). *)
Inductive stands_for (force : bool) : ui -> expr -> ui -> cred -> Prop :=
| sf_group th m u u' subs :
    members_stand_for force u m u' subs -> subs <> [] -> total_shares subs < 2 ^ 64 ->
    1 <= needed th (total_shares subs) <= total_shares subs ->
    stands_for force u (Group th m) u' (Complex subs (total_shares subs) (needed th (total_shares subs)))
with members_stand_for (force : bool) : ui -> members -> ui -> list (N * cred) -> Prop :=
| ms_nil u : members_stand_for force u MNil u []
| ms_key n t m u u1 u' cs subs :
    read_token sha512 files Encrypt force t u = (Ok cs, u1) -> members_stand_for force u1 m u' subs ->
    members_stand_for force u (MKey n t m) u' (map (fun c => (n, c)) cs ++ subs)
| ms_group n e m u u1 u' c subs :
    stands_for force u e u1 c -> members_stand_for force u1 m u' subs ->
    members_stand_for force u (MGroup n e m) u' ((n, c) :: subs).

(** The credentials of a flat list of key arguments. *)
Inductive reads (d : crypt_direction) (force : bool) : ui -> list token -> ui -> list cred -> Prop :=
| rd_nil u : reads d force u [] u []
| rd_cons t ts u u1 u' cs cs' :
    read_token sha512 files d force t u = (Ok cs, u1) -> reads d force u1 ts u' cs' ->
    reads d force u (t :: ts) u' (cs ++ cs').

End WithEnvironment.

(** The share counts of a credential do not overflow. *)
Fixpoint fits (c : cred) : Prop :=
  match c with
  | Complex subs _ _ => total_shares subs < 2 ^ 64 /\ fold_right and True (map (fun p => fits (snd p)) subs)
  | _ => True
  end.

(** Some group has at least 2^40 shares. *)
Fixpoint enormous (c : cred) : Prop :=
  match c with
  | Complex subs _ _ => 2 ^ 40 <= total_shares subs \/ fold_right or False (map (fun p => enormous (snd p)) subs)
  | _ => False
  end.

(** What decryption may use. *)
Definition flat_cred (c : cred) : Prop :=
  match c with Password _ | SymmetricKey _ | PrivateKey _ => True | PublicKey _ | Complex _ _ _ => False end.

(** ** The arguments in the order of the command line *)

(** A number: an optional plus sign and decimal digits, below 2^64. *)
Definition digit_value (c : N) : N := c - 48.
Definition decimal (v : list N) (n : N) : Prop :=
  exists ds, (v = ds \/ v = 43 :: ds) /\ ds <> [] /\ Forall (fun c => 48 <= c <= 57) ds /\
    n = fold_left (fun a c => 10 * a + digit_value c) ds 0 /\ n < 2 ^ 64.

(** The token of an option. *)
Inductive occ_token : occurrence -> token -> Prop :=
| ot_password p v : occ_token (mkOcc p OPassword v) InteractivePassword
| ot_start p v : occ_token (mkOcc p OStartGroup v) StartGroup
| ot_end p v : occ_token (mkOcc p OEndGroup v) EndGroup
| ot_all p v : occ_token (mkOcc p ORequireAllKeys v) RequireAllKeys
| ot_threshold p v n : decimal v n -> occ_token (mkOcc p OKeyThreshold (Some v)) (KeyThreshold n)
| ot_shares p v n : decimal v n -> occ_token (mkOcc p OKeyShares (Some v)) (KeyShares n)
| ot_named p v : occ_token (mkOcc p OPasswordNamed (Some v)) (NamedInteractivePassword v)
| ot_password_file p v : occ_token (mkOcc p OPasswordFile (Some v)) (PasswordFile v)
| ot_symmetric p v : occ_token (mkOcc p OSymmetricKey (Some v)) (SymmetricKeyFile v)
| ot_public p v : occ_token (mkOcc p OPublicKey (Some v)) (PublicKeyFile v)
| ot_public_text p v : occ_token (mkOcc p OPublicKeyText (Some v)) (PublicKeyText v)
| ot_private p v : occ_token (mkOcc p OPrivateKey (Some v)) (PrivateKeyFile v).

Definition credential_opt (o : opt) : bool :=
  match o with
  | OPassword | OPasswordNamed | OPasswordFile | OPublicKey | OPublicKeyText | OPrivateKey | OSymmetricKey
  | OKeyThreshold | ORequireAllKeys | OKeyShares | OStartGroup | OEndGroup => true
  | _ => false
  end.
Definition credential_occs (m : opt_matches) : list occurrence := filter (fun o => credential_opt (o_opt o)) (m_occs m).

(** One option as one or two arguments. *)
Inductive spelled : opt -> option text -> list text -> Prop :=
| sl_short o c : has_value o = false -> short o = Some c -> spelled o None [[45; c]]
| sl_long o : has_value o = false -> spelled o None [45 :: 45 :: long o]
| sl_short_value o c v : has_value o = true -> short o = Some c -> spelled o (Some v) [[45; c]; v]
| sl_short_joined o c v : has_value o = true -> short o = Some c -> v <> [] -> spelled o (Some v) [45 :: c :: v]
| sl_long_value o v : has_value o = true -> spelled o (Some v) [45 :: 45 :: long o; v]
| sl_long_equals o v : has_value o = true -> spelled o (Some v) [45 :: 45 :: long o ++ 61 :: v].

(** [says args ts]: the command line [args], which has every option on its own, has the credential arguments
    [ts] in this order. *)
Inductive says : list text -> list token -> Prop :=
| sy_nil : says [] []
| sy_credential o v arg t args ts :
    spelled o v arg -> occ_token (mkOcc 0 o v) t -> says args ts -> says (arg ++ args) (t :: ts)
| sy_other o v arg args ts : spelled o v arg -> credential_opt o = false -> says args ts -> says (arg ++ args) ts
| sy_free a args ts : (forall a', a = 45 :: a' -> a' = []) -> says args ts -> says (a :: args) ts
| sy_end args : says ([45; 45] :: args) [].

(** All groups have members, and a threshold between 1 and their number of shares. *)
Fixpoint thresholds_fit (c : cred) : Prop :=
  match c with
  | Complex subs n t => subs <> [] /\ 1 <= t <= n /\ fold_right and True (map (fun p => thresholds_fit (snd p)) subs)
  | _ => True
  end.

(** The options that are refused on decryption. *)
Definition encryption_only (o : opt) : Prop :=
  match o with
  | OKeyThreshold | ORequireAllKeys | OKeyShares | OStartGroup | OEndGroup | OPublicKey | OPublicKeyText => True
  | _ => False
  end.

(** The contract of the crypto library: for which arguments its functions are defined, and what they do then.

    [crypto_ok] (Crypto), which the other theorems assume, speaks of all arguments.  The documentation of libsodium
    promises less: keys, nonces, salts and tags must have the right size, messages must not be too long. *)
From Coq Require Import List NArith Bool.
From Coq.Strings Require Import Byte.
From Verif Require Import Base Errors Crypto HeaderCrypto Cli LibSodium.
Import ListNotations.
Local Open Scope N_scope.

(** crypto_aead_aes256gcm_MESSAGEBYTES_MAX, the smaller of the limits: 16 * (2^32 - 2) bytes. *)
Definition message_limit : N := 68719476704.
(** crypto_pwhash_PASSWD_MAX *)
Definition password_limit : N := 4294967295.

Definition aead_args (m k n : bytes) : Prop :=
  lenN m <= message_limit /\ length k = 32%nat /\ length n = 12%nat.
Definition box_args (m k n : bytes) : Prop :=
  lenN m <= message_limit /\ length k = 32%nat /\ length n = 24%nat.
Definition kdf_args (p s : bytes) : Prop := lenN p <= password_limit /\ length s = 16%nat.

(** What the library promises. *)
Record contract (cs : cryptosys) : Prop := {
  c_hash_len : forall m, length (cs_hash cs m) = 32%nat;
  c_hmac_len : forall m k, length k = 32%nat -> length (cs_hmac cs m k) = 32%nat;
  c_kdf_len : forall p s, kdf_args p s -> length (cs_kdf cs p s) = 32%nat;
  c_aead_len : forall m ad k n, aead_args m k n ->
    length (fst (cs_aead_encrypt cs m ad k n)) = length m /\ length (snd (cs_aead_encrypt cs m ad k n)) = 16%nat;
  c_aead_inv : forall m ad k n, aead_args m k n ->
    cs_aead_decrypt cs (fst (cs_aead_encrypt cs m ad k n)) ad k n (snd (cs_aead_encrypt cs m ad k n)) = Some m;
  c_aead_dec_len : forall c ad k n t m, aead_args c k n -> length t = 16%nat ->
    cs_aead_decrypt cs c ad k n t = Some m -> length m = length c;
  c_box_len : forall m n k, box_args m k n ->
    length (fst (cs_box_seal cs m n k)) = length m /\ length (snd (cs_box_seal cs m n k)) = 16%nat;
  c_box_inv : forall m n k, box_args m k n ->
    cs_box_open cs (fst (cs_box_seal cs m n k)) n k (snd (cs_box_seal cs m n k)) = Some m;
  c_keypair : forall s, length (fst (cs_keypair cs s)) = 32%nat /\ length (snd (cs_keypair cs s)) = 64%nat /\
    skipn 32 (snd (cs_keypair cs s)) = fst (cs_keypair cs s);
  c_agreed_len : forall pk sk k, length pk = 32%nat -> length sk = 64%nat ->
    cs_beforenm cs pk sk = Some k -> length k = 32%nat;
  c_agree : forall s1 s2, exists k,
    cs_beforenm cs (fst (cs_keypair cs s1)) (snd (cs_keypair cs s2)) = Some k /\
    cs_beforenm cs (fst (cs_keypair cs s2)) (snd (cs_keypair cs s1)) = Some k
}.

(** Two libraries that cannot be told apart by calls with admissible arguments. *)
Record same_within (cs cs' : cryptosys) : Prop := {
  s_hash : forall m, cs_hash cs m = cs_hash cs' m;
  s_hmac : forall m k, length k = 32%nat -> cs_hmac cs m k = cs_hmac cs' m k;
  s_kdf : forall p s, kdf_args p s -> cs_kdf cs p s = cs_kdf cs' p s;
  s_encrypt : forall m ad k n, aead_args m k n -> cs_aead_encrypt cs m ad k n = cs_aead_encrypt cs' m ad k n;
  s_decrypt : forall c ad k n t, aead_args c k n -> length t = 16%nat ->
    cs_aead_decrypt cs c ad k n t = cs_aead_decrypt cs' c ad k n t;
  s_keypair : forall s, cs_keypair cs s = cs_keypair cs' s;
  s_beforenm : forall pk sk, length pk = 32%nat -> length sk = 64%nat -> cs_beforenm cs pk sk = cs_beforenm cs' pk sk;
  s_seal : forall m n k, box_args m k n -> cs_box_seal cs m n k = cs_box_seal cs' m n k;
  s_open : forall c n k t, box_args c k n -> length t = 16%nat -> cs_box_open cs c n k t = cs_box_open cs' c n k t
}.

Definition lib_contract (lib : crypto_lib) : Prop := forall a cs, lib a = Some cs -> contract cs.
Definition lib_same_within (lib lib' : crypto_lib) : Prop := forall a,
  match lib a, lib' a with
  | Some cs, Some cs' => same_within cs cs'
  | None, None => True
  | _, _ => False
  end.

(** Credentials whose keys have the right size (the Rust types say so) and whose passwords are shorter than 4 GiB. *)
Fixpoint sized (c : cred) : Prop :=
  match c with
  | Password p => lenN p <= password_limit
  | SymmetricKey k => length k = 32%nat
  | PublicKey k => length k = 32%nat
  | PrivateKey k => length k = 64%nat
  | Complex subs _ _ => fold_right and True (map (fun p => sized (snd p)) subs)
  end.

(** The passwords in a credential expression, and in a command. *)
Fixpoint passwords (c : cred) : list bytes :=
  match c with
  | Password p => [p]
  | Complex subs _ _ => concat (map (fun p => passwords (snd p)) subs)
  | _ => []
  end.
Definition command_passwords (c : command) : list bytes :=
  match c with
  | CryptStreams _ _ _ (DoEncrypt c _) => passwords c
  | CryptStreams _ _ _ (DoDecrypt cs) => concat (map passwords cs)
  | _ => []
  end.
Definition short_passwords (l : list bytes) : Prop := Forall (fun p => lenN p <= password_limit) l.

(** What libsodium promises about the C functions themselves. *)
Record sodium_ok (so : sodium) : Prop := {
  so_hash_len : forall m, length (so_hash so m) = 64%nat;
  so_auth_len : forall m k, length k = 32%nat -> length (so_auth so m k) = 32%nat;
  so_chacha_ok : forall m ad n k, lenN m <= so_chacha_max so -> length n = 12%nat -> length k = 32%nat ->
    let '(c, t) := so_chacha_encrypt so m ad n k in
    length c = length m /\ length t = 16%nat /\ so_chacha_decrypt so c t ad n k = Some m;
  so_chacha_dec_len : forall c t ad n k m, lenN c <= so_chacha_max so -> length n = 12%nat -> length k = 32%nat -> length t = 16%nat ->
    so_chacha_decrypt so c t ad n k = Some m -> length m = length c;
  so_aes_ok : so_aes_available so = true -> forall m ad n k, lenN m <= so_aes_max so -> length n = 12%nat -> length k = 32%nat ->
    let '(c, t) := so_aes_encrypt so m ad n k in
    length c = length m /\ length t = 16%nat /\ so_aes_decrypt so c t ad n k = Some m;
  so_aes_dec_len : so_aes_available so = true -> forall c t ad n k m,
    lenN c <= so_aes_max so -> length n = 12%nat -> length k = 32%nat -> length t = 16%nat ->
    so_aes_decrypt so c t ad n k = Some m -> length m = length c;
  so_max_ok : message_limit <= so_chacha_max so /\ message_limit <= so_aes_max so;
  so_keypair_ok : forall s, let '(pk, sk) := so_sign_keypair so s in
    length pk = 32%nat /\ length sk = 64%nat /\ skipn 32 sk = pk;
  so_convert_ok : forall s, let '(pk, sk) := so_sign_keypair so s in
    (exists cpk, so_pk_to_curve25519 so pk = Some cpk) /\ (exists csk, so_sk_to_curve25519 so sk = Some csk);
  so_agree : forall s1 s2 cpk1 csk1 cpk2 csk2,
    so_pk_to_curve25519 so (fst (so_sign_keypair so s1)) = Some cpk1 ->
    so_sk_to_curve25519 so (snd (so_sign_keypair so s1)) = Some csk1 ->
    so_pk_to_curve25519 so (fst (so_sign_keypair so s2)) = Some cpk2 ->
    so_sk_to_curve25519 so (snd (so_sign_keypair so s2)) = Some csk2 ->
    exists k, so_box_beforenm so cpk1 csk2 = Some k /\ so_box_beforenm so cpk2 csk1 = Some k;
  so_beforenm_len : forall cpk csk k, so_box_beforenm so cpk csk = Some k -> length k = 32%nat;
  so_box_ok : forall m n k, lenN m <= message_limit -> length n = 24%nat -> length k = 32%nat ->
    let '(c, t) := so_box_afternm so m n k in
    length c = length m /\ length t = 16%nat /\ so_box_open_afternm so c t n k = Some m;
  so_pwhash_ok : forall p s, kdf_args p s -> exists out, so_pwhash so 32 p s = Some out /\ length out = 32%nat
}.

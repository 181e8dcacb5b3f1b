(** Specification vocabulary for confidentiality.

    Secrecy of a cipher is not a property of a function, so the claims are stated in the ideal world of
    the usual game hopping argument: under chosen keys the ciphers encrypt zeros instead of the message.
    Going from the real to the ideal world is the definition of a secure cipher (no nonce is used twice
    under one key, see C10); what is proved is that nothing secret is left in the ideal world. *)
From Coq.Strings Require Import Byte String.
From Coq Require Import List NArith Bool.
From Verif Require Import Base Shamir Errors Crypto HeaderCrypto AuthSpec FileSpec.
Import ListNotations.

(** The crypto system in which every encryption under a key in [hidden] encrypts zeros. *)
Definition blind (hidden : bytes -> bool) (cs : cryptosys) : cryptosys := {|
  cs_hash := cs_hash cs;
  cs_hmac := cs_hmac cs;
  cs_aead_encrypt m ad k n := cs_aead_encrypt cs (if hidden k then repeat x00 (length m) else m) ad k n;
  cs_aead_decrypt := cs_aead_decrypt cs;
  cs_keypair := cs_keypair cs;
  cs_beforenm := cs_beforenm cs;
  cs_box_seal m n k := cs_box_seal cs (if hidden k then repeat x00 (length m) else m) n k;
  cs_box_open := cs_box_open cs;
  cs_kdf := cs_kdf cs
|}.
Definition blind_lib (hidden : bytes -> bool) (lib : crypto_lib) : crypto_lib :=
  fun a => option_map (blind hidden) (lib a).

(** The key under which a recipient's part of the header is encrypted, for the ephemeral key pair
    [epk], [esk]: derived from the password, the symmetric key or by key agreement. *)
Definition key_of_recipient (cs : cryptosys) (epk esk : bytes) (c : cred) : option bytes :=
  match c with
  | Password p =>
      let salt := firstn 16 (cs_hmac cs epk (list_byte_of_string "rypt kdf salt" ++ repeat x00 19)) in
      Some (cs_kdf cs p salt)
  | SymmetricKey k => Some (cs_hmac cs (epk ++ k) (list_byte_of_string "rypt symmetric secret" ++ repeat x00 11))
  | PublicKey pk => cs_beforenm cs pk esk
  | PrivateKey _ | Complex _ _ _ => None
  end.

(** [r'] is [r] with the bytes of [mask] xored into its first bytes: as likely as [r] when random bytes
    are uniform and independent, and [mask] takes it back to [r]. *)
Definition masked (mask : bytes) (r r' : rng) : Prop := forall i, r' i = bxor (r i) (nth i mask x00).

(** [ct] is the part of a header for the recipient [c] at position [i]: some [m] encrypted under the
    recipient's key. *)
Definition sealed_for (cs : cryptosys) (epk esk : bytes) (i : nat) (c : cred) (m ct : bytes) : Prop :=
  exists k, key_of_recipient cs epk esk c = Some k /\
    ((by_secret c = true /\ ct = se_ct (seal cs k (nonce_of_recipient i) [] m)) \/
     (by_public_key c = true /\ ct = fst (cs_box_seal cs m (box_nonce_of_recipient i) k) ++ snd (cs_box_seal cs m (box_nonce_of_recipient i) k))).

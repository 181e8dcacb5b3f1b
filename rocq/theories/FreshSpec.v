(** Specification vocabulary for histories of encryptions: which key and nonce every part of a file is
    encrypted with. *)
From Coq.Strings Require Import Byte String.
From Coq Require Import List NArith Bool.
From Verif Require Import Base Shamir Errors Io Crypto Proto HeaderIoSpec HeaderCrypto CredSpec StreamSpec Pipeline FileCrypto AuthSpec FileSpec HideSpec.
Import ListNotations.

(** One encryption of one file: what was asked, the random values drawn, the data, the output before
    and after. *)
Record run := mkRun { r_opts : encrypt_options; r_random : enc_random; r_src : source; r_before : sink; r_after : sink }.

(** It succeeded. *)
Definition completed (lib : crypto_lib) (r : run) : Prop :=
  random_ok (r_random r) /\ wf_cred (expression (r_opts r)) /\
  encrypt_stream lib (r_opts r) (r_random r) (r_src r) (r_before r) (Ok tt) (r_after r) /\
  (lenN (flat (r_src r)) < 2 ^ 64)%N.

(** One use of a cipher: public-key box or not, the key, the nonce. *)
Definition use : Type := bool * bytes * bytes.
(** [ct] comes from this use. *)
Definition made_by (cs : cryptosys) (u : use) (ct : bytes) : Prop :=
  match u with
  | (false, k, n) => exists ad m, ct = se_ct (seal cs k n ad m)
  | (true, k, n) => exists m, ct = fst (cs_box_seal cs m n k) ++ snd (cs_box_seal cs m n k)
  end.

(** The ephemeral key pair of a run. *)
Definition public_of (cs : cryptosys) (r : run) : bytes := fst (cs_keypair cs (er_seed (r_random r))).
Definition private_of (cs : cryptosys) (r : run) : bytes := snd (cs_keypair cs (er_seed (r_random r))).
Definition recipient_key (cs : cryptosys) (r : run) (c : cred) : option bytes := key_of_recipient cs (public_of cs r) (private_of cs r) c.

(** The uses for a file of [n] chunks: the protected part, the recipients, the chunks. *)
Definition uses_for_recipients (cs : cryptosys) (r : run) (from : nat) (l : list cred) : list use :=
  flat_map (fun ic => match recipient_key cs r (snd ic) with
                      | Some k => [(by_public_key (snd ic), k, if by_public_key (snd ic) then box_nonce_of_recipient (fst ic) else nonce_of_recipient (fst ic))]
                      | None => []
                      end) (combine (seq from (length l)) l).
Definition uses (cs : cryptosys) (r : run) (n : nat) : list use :=
  (false, er_payload_key (r_random r), nonce_of_header)
  :: uses_for_recipients cs r 0 (leaves (expression (r_opts r)))
  ++ map (fun i => (false, er_payload_key (r_random r), nonce_of_chunk i)) (seq 0 n).

(** The file written by [r] consists of a framed header and [n] chunks, and each ciphertext in it, in
    order, comes from the use at the same place of [uses cs r n]. *)
Definition composed (cs : cryptosys) (r : run) (n : nat) : Prop :=
  exists ser frame h cts,
    w_out (r_after r) = w_out (r_before r) ++ frame ++ concat cts /\ is_frame ser frame /\ length cts = n /\
    decode_header ser = Some h /\ hd_ephemeral_pk h = public_of cs r /\
    length (header_keys ser) = length (leaves (expression (r_opts r))) /\
    Forall2 (made_by cs) (uses cs r n) (hd_protected h :: header_keys ser ++ cts).

(** What it takes for recipients [c1], [c2] of files with ephemeral public keys [e1], [e2] (and private
    keys [s1], [s2]) to have the same key. *)
Definition salt_of (cs : cryptosys) (e : bytes) : bytes :=
  firstn 16 (cs_hmac cs e (list_byte_of_string "rypt kdf salt" ++ repeat x00 19)).
Definition symmetric_of (cs : cryptosys) (e k : bytes) : bytes :=
  cs_hmac cs (e ++ k) (list_byte_of_string "rypt symmetric secret" ++ repeat x00 11).
Definition clash (cs : cryptosys) (e1 s1 e2 s2 : bytes) (c1 c2 : cred) : Prop :=
  match c1, c2 with
  | Password p1, Password p2 =>
      (* two keys get the same salt, or two inputs of the key derivation the same key *)
      salt_of cs e1 = salt_of cs e2 \/
      ((p1, salt_of cs e1) <> (p2, salt_of cs e2) /\ cs_kdf cs p1 (salt_of cs e1) = cs_kdf cs p2 (salt_of cs e2))
  | SymmetricKey k1, SymmetricKey k2 => e1 ++ k1 <> e2 ++ k2 /\ symmetric_of cs e1 k1 = symmetric_of cs e2 k2
  | Password p, SymmetricKey k => cs_kdf cs p (salt_of cs e1) = symmetric_of cs e2 k
  | SymmetricKey k, Password p => symmetric_of cs e1 k = cs_kdf cs p (salt_of cs e2)
  | PublicKey p1, PublicKey p2 => s1 <> s2 /\ cs_beforenm cs p1 s1 = cs_beforenm cs p2 s2
  | _, _ => False
  end.

(** A key of one file is also a key of another: the derived key of a recipient is the payload key drawn
    for the other file, or two recipients at the same place have the same key, by a clash. *)
Inductive coincidence (cs : cryptosys) (r1 r2 : run) : Prop :=
| payload1 c : In c (leaves (expression (r_opts r2))) -> by_secret c = true ->
    recipient_key cs r2 c = Some (er_payload_key (r_random r1)) -> coincidence cs r1 r2
| payload2 c : In c (leaves (expression (r_opts r1))) -> by_secret c = true ->
    recipient_key cs r1 c = Some (er_payload_key (r_random r2)) -> coincidence cs r1 r2
| recipients i c1 c2 :
    nth_error (leaves (expression (r_opts r1))) i = Some c1 -> nth_error (leaves (expression (r_opts r2))) i = Some c2 ->
    clash cs (public_of cs r1) (private_of cs r1) (public_of cs r2) (private_of cs r2) c1 c2 -> coincidence cs r1 r2.

(** [Work] computes what [HeaderCrypto] computes; what it asks for. *)
From Coq.Strings Require Import Byte String.
From Coq Require Import List NArith Bool PeanoNat Lia.
From Verif Require Import Base BaseFacts Shamir Errors HeaderIo Crypto Proto HeaderCrypto Work WorkSpec.
Import ListNotations.
Local Open Scope N_scope.

(** ** The monad *)

Lemma run_bind {A B} lib (m : work A) (f : A -> work B) : run lib (wbind m f) = let* a := run lib m in run lib (f a).
Proof. induction m as [[a|e|]|a r k IH]; cbn [wbind run bind]; try reflexivity. apply IH. Qed.
Lemma requests_bind {A B} lib (m : work A) (f : A -> work B) :
  requests lib (wbind m f) = requests lib m ++ match run lib m with Ok a => requests lib (f a) | _ => [] end.
Proof. induction m as [[a|e|]|a r k IH]; cbn [wbind run requests app]; try reflexivity. rewrite IH. reflexivity. Qed.
Lemma requests_done {A} lib (r : outcome err A) : requests lib (Done r) = [].
Proof. reflexivity. Qed.

(** ** The same results *)

Section Run.
Variable lib : crypto_lib.
Variable a : alg.
Variable cs : cryptosys.
Hypothesis Hcs : lib a = Some cs.

Lemma run_certain r b : answer lib a r = Some b -> run lib (certain a r) = Ok b.
Proof. intros H. unfold certain. cbn [run]. rewrite H. reflexivity. Qed.
Lemma run_secret_key pk c : run lib (w_recipient_secret_key a pk c) = recipient_secret_key cs pk c.
Proof.
  destruct c; cbn [w_recipient_secret_key recipient_secret_key]; try reflexivity.
  - rewrite run_bind. rewrite (run_certain _ (cs_hmac cs pk KDF_SALT_NONCE)) by (unfold answer; rewrite Hcs; reflexivity). cbn [bind].
    apply run_certain. unfold answer. rewrite Hcs. reflexivity.
  - apply run_certain. unfold answer. rewrite Hcs. reflexivity.
Qed.
Lemma run_aead c k n : run lib (w_aead_decrypt_easy a c k n) = Ok (aead_decrypt_easy cs c k n).
Proof. unfold w_aead_decrypt_easy, aead_decrypt_easy. destruct (Nat.ltb _ _); [reflexivity|]. cbn [run]. unfold answer. rewrite Hcs. reflexivity. Qed.
Lemma run_box c pk sk n : run lib (w_box_decrypt_easy a c pk sk n) =
  match box_decrypt_easy cs c pk sk n with Ok r => Ok (Some r) | Err InvalidCiphertext => Ok None | Err InvalidPublicPrivateKeyPair => Err EInvalidKeyPair | Panic => Panic end.
Proof.
  unfold w_box_decrypt_easy, box_decrypt_easy. destruct (Nat.ltb _ _); [reflexivity|]. cbn [run]. unfold answer at 1. rewrite Hcs.
  destruct (cs_beforenm cs pk sk); [|reflexivity]. cbn [run]. unfold answer. rewrite Hcs. destruct (cs_box_open _ _ _ _ _); reflexivity.
Qed.

Definition same_decryptor (d : wdecryptor) (d' : decryptor) : Prop := forall c i, run lib (d c i) = d' c i.
Lemma run_decryptors pk l :
  match run lib (w_decryptors a pk l), map_out (decryptor_from_credential cs pk) l with
  | Ok ds, Ok ds' => Forall2 same_decryptor ds ds'
  | Err e, Err e' => e = e'
  | Panic, Panic => True
  | _, _ => False
  end.
Proof.
  induction l as [|c l IH]; [constructor|]. cbn [w_decryptors map_out]. rewrite run_bind.
  assert (K : forall d d', same_decryptor d d' -> match
      run lib (wbind (w_decryptors a pk l) (fun ds => Done (Ok (d :: ds)))), (let* bs := map_out (decryptor_from_credential cs pk) l in Ok (d' :: bs)) with
      | Ok ds, Ok ds' => Forall2 same_decryptor ds ds' | Err e, Err e' => e = e' | Panic, Panic => True | _, _ => False end).
  { intros d d' S. rewrite run_bind. destruct (run lib (w_decryptors a pk l)), (map_out (decryptor_from_credential cs pk) l); cbn [bind run]; try exact IH. constructor; assumption. }
  destruct c; cbn [w_decryptor_from_credential decryptor_from_credential]; try exact I.
  - rewrite run_bind, run_secret_key. destruct (recipient_secret_key cs pk (Password p)); cbn [bind run]; try reflexivity. apply K. intros c i. apply run_aead.
  - rewrite run_bind, run_secret_key. destruct (recipient_secret_key cs pk (SymmetricKey k)); cbn [bind run]; try reflexivity. apply K. intros c i. apply run_aead.
  - cbn [run bind]. apply K. intros c i. apply run_box.
Qed.
Lemma run_try ds ds' c i : Forall2 same_decryptor ds ds' -> run lib (w_try_decryptors ds c i) = try_decryptors ds' c i.
Proof.
  induction 1 as [|d d' ds ds' S _ IH]; [reflexivity|]. cbn [w_try_decryptors try_decryptors]. rewrite run_bind, (S c i).
  destruct (d' c i) as [[r|]|e|]; cbn [bind run]; try reflexivity. exact IH.
Qed.
Lemma run_smap {A B S} (f : A -> S -> work (B * S)) (g : A -> S -> outcome err (B * S)) l :
  Forall (fun x => forall s, run lib (f x s) = g x s) l -> forall s, run lib (w_smap f l s) = smap g l s.
Proof.
  induction 1 as [|x l E _ IH]; intros s; [reflexivity|]. cbn [w_smap smap]. rewrite run_bind, E.
  destruct (g x s) as [[b s']|e|]; cbn [bind]; try reflexivity. rewrite run_bind. fold (w_smap f). fold (smap g). rewrite IH. destruct (smap g l s') as [[bs s'']|e|]; reflexivity.
Qed.
Lemma run_key_data ds ds' : Forall2 same_decryptor ds ds' -> forall d i, run lib (w_decrypt_key_data ds d i) = decrypt_key_data ds' d i.
Proof.
  intros S. fix IH 1. intros [|b|t parts] i.
  - reflexivity.
  - cbn [w_decrypt_key_data decrypt_key_data]. rewrite run_bind, (run_try _ _ _ _ S). destruct (try_decryptors ds' b i); reflexivity.
  - cbn [w_decrypt_key_data decrypt_key_data]. rewrite run_bind. erewrite run_smap.
    2:{ induction parts as [|[num d] parts IHp]; [constructor|]. constructor; [|exact IHp]. intros [ki pi]. rewrite run_bind, (IH d ki).
        instantiate (1 := fun part st => let '(num, key_data) := part in let '(key_idx, key_part_idx) := st in
                let* (keydata_opt, key_idx) := decrypt_key_data ds' key_data key_idx in
                let num_key_parts := N.max num 1 in
                let* l := distribute_key_data keydata_opt num_key_parts key_part_idx in
                Ok (l, (key_idx, wrap64 (key_part_idx + num_key_parts)))).
        cbv beta iota. destruct (decrypt_key_data ds' d ki) as [[o k]|e|]; cbn [bind]; try reflexivity. rewrite run_bind. cbn [run].
        destruct (distribute_key_data o (N.max num 1) pi); reflexivity. }
    destruct (smap _ parts (i, 0)) as [[dec [ki np]]|e|]; cbn [bind]; try reflexivity. rewrite run_bind. cbn [run]. destruct (recombine t (concat dec) np); reflexivity.
Qed.
End Run.

Lemma run_header lib s D : decrypt_header lib s D =
  let* (a, k, h, n) := run lib (w_decrypt_header (available lib) s D) in
  match lib a with Some cs => Ok (mkCodec cs k h false, n) | None => Panic end.
Proof.
  unfold decrypt_header, w_decrypt_header. rewrite run_bind. cbn [run]. destruct (decode_header s) as [hd|]; [|reflexivity]. cbn [bind].
  rewrite run_bind. cbn [run]. unfold cryptosys_from_proto, w_cryptosys_from_proto, available at 1. destruct (hd_family hd) as [fam|]; [|reflexivity].
  destruct (if fam =? 1 then _ else _) as [a|e|]; cbn [bind]; try reflexivity.
  destruct (lib a) as [cs|] eqn:Hcs; cbn [bind]; [|reflexivity].
  rewrite run_bind. cbn [run]. destruct (ensure _ EBadLength) as [u|e|]; cbn [bind]; try reflexivity.
  rewrite run_bind. pose proof (run_decryptors lib a cs Hcs (hd_ephemeral_pk hd) D) as F.
  destruct (run lib (w_decryptors a (hd_ephemeral_pk hd) D)) as [ds|e|], (map_out (decryptor_from_credential cs (hd_ephemeral_pk hd)) D) as [ds'|e'|]; cbn [bind]; try contradiction; try reflexivity; [|subst; reflexivity].
  rewrite run_bind. cbn [run]. destruct (hd_payload_key hd) as [[t parts]|]; cbn [bind]; [|reflexivity].
  rewrite run_bind, (run_key_data lib ds ds' F). cbn [fst snd]. destruct (decrypt_key_data ds' (KComp t parts) 0) as [[ko ki]|e|]; cbn [bind]; try reflexivity.
  rewrite run_bind. cbn [run]. destruct ko as [pk|]; cbn [bind]; [|reflexivity].
  rewrite run_bind. cbn [run]. destruct (ensure _ EBadLength) as [u'|e|]; cbn [bind]; try reflexivity.
  rewrite run_bind, (run_aead lib a cs Hcs). cbn [bind]. rewrite run_bind. cbn [run]. destruct (aead_decrypt_easy _ _ _ _) as [pr|]; cbn [bind]; [|reflexivity].
  rewrite run_bind. cbn [run]. destruct (decode_protected pr) as [p|]; cbn [bind]; [|reflexivity].
  rewrite run_bind. cbn [run]. destruct (check_chunk_size _) as [u2|e|]; cbn [bind]; try reflexivity.
  rewrite run_bind. cbn [run]. destruct (if ph_auth_type p =? 1 then _ else _) as [u3|e|]; cbn [bind]; try reflexivity.
  rewrite run_bind. rewrite (run_certain lib a (AskHash s) (cs_hash cs s)) by (unfold answer; rewrite Hcs; reflexivity). cbn [bind run]. rewrite Hcs. reflexivity.
Qed.

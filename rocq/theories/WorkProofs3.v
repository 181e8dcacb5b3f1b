(** The work of opening a header, and how deep headers can be. *)
From Coq.Strings Require Import Byte String.
From Coq Require Import List NArith Bool PeanoNat Lia.
From Verif Require Import Base BaseFacts Shamir Errors HeaderIo Crypto Proto ProtoProofs HeaderCrypto Work WorkSpec WorkProofs WorkProofs2.
Import ListNotations.

Section Header.
Variable lib : crypto_lib.

(** Everything after the decryptors. *)
Lemma header_requests s D :
  let l := requests lib (w_decrypt_header (available lib) s D) in
  (exists rest, passwords D = stretched l ++ rest) /\
  20 * attempts l <= length D * length s + 20 /\ attempted_bytes l <= max 1 (length D) * length s /\ 10 * length l <= 20 * length D + length D * length s + 20.
Proof.
  cbv zeta. unfold w_decrypt_header. rewrite requests_bind. cbn [requests run app].
  destruct (decode_header s) as [hd|] eqn:E; [|cbn; repeat split; try lia; exists (passwords D); reflexivity]. apply decode_size in E.
  rewrite requests_bind. cbn [requests run app].
  destruct (w_cryptosys_from_proto _ _) as [a|e|]; [|cbn; repeat split; try lia; exists (passwords D); reflexivity..].
  rewrite requests_bind. cbn [requests run app].
  destruct (ensure _ _) as [u|e|]; [|cbn; repeat split; try lia; exists (passwords D); reflexivity..].
  cbv zeta. rewrite requests_bind. destruct (decryptors_spec lib a (hd_ephemeral_pk hd) D) as (P & A & B & L & R).
  set (ld := requests lib (w_decryptors a (hd_ephemeral_pk hd) D)) in *.
  destruct (run lib (w_decryptors a (hd_ephemeral_pk hd) D)) as [ds| |]; [|rewrite app_nil_r, A, B; repeat split; try lia; exact P..].
  destruct (R ds eq_refl) as (Len & Mod & Str). clear R P.
  match goal with |- context [ld ++ ?l] => set (lr := l) end.
  assert (T : stretched lr = [] /\ 20 * attempts lr <= length D * length s + 20 /\ attempted_bytes lr <= max 1 (length D) * length s /\ 10 * length lr <= length D * length s + 20).
  2:{ destruct T as (T1 & T2 & T3 & T4). rewrite stretched_app, attempts_app, bytes_app, app_length, T1, A, B, Str. split; [exists []; rewrite !app_nil_r; reflexivity|]. repeat split; lia. }
  unfold lr. clear lr A B L Str ld. rewrite requests_bind. cbn [requests run app].
  unfold hsize in E. destruct (hd_payload_key hd) as [[t parts]|]; [|cbn; repeat split; lia]. cbn [fst snd].
  rewrite requests_bind. pose proof (fits_key_data lib ds Mod (KComp t parts) 0%N) as F. rewrite Len in F.
  (* the outermost group has no frame of its own *)
  assert (F' : fits4 (length D) (csize (t, parts)) (requests lib (w_decrypt_key_data ds (KComp t parts) 0%N))).
  { cbn [w_decrypt_key_data]. rewrite requests_bind. unfold csize. cbn [snd]. rewrite <- (Nat.add_0_r (list_sum _)). apply fits4_app.
    - apply fits_smap. apply Forall_forall. intros [num d] _ [ki pi]. cbn [snd]. rewrite requests_bind.
      rewrite <- (Nat.add_0_r (2 + ksize d)). apply fits4_app; [rewrite <- Len; apply fits_key_data, Mod|]. destruct (run lib (w_decrypt_key_data ds d ki)) as [[o k]| |]; try apply fits4_nil.
      rewrite requests_bind. cbn [requests run app]. destruct (distribute_key_data _ _ _); apply fits4_nil.
    - destruct (run lib _) as [[dec [ki np]]| |]; try apply fits4_nil. rewrite requests_bind. cbn [requests run app]. destruct (recombine _ _ _); apply fits4_nil. }
  clear F. set (lk := requests lib (w_decrypt_key_data ds (KComp t parts) 0%N)) in *. destruct F' as (F1 & F2 & F3 & F4).
  set (sz := csize (t, parts)) in *. set (pr := length (hd_protected hd)) in *.
  assert (M : length D * sz + length D * pr <= length D * length s) by (rewrite <- Nat.mul_add_distr_l; apply Nat.mul_le_mono_l; exact E).
  assert (M1 : length D * sz + 1 * pr <= max 1 (length D) * length s).
  { apply Nat.le_trans with (max 1 (length D) * sz + max 1 (length D) * pr); [|rewrite <- Nat.mul_add_distr_l; apply Nat.mul_le_mono_l; exact E].
    apply Nat.add_le_mono; apply Nat.mul_le_mono_r; lia. }
  match goal with |- context [lk ++ ?l] => set (lr := l) end.
  assert (T : stretched lr = [] /\ attempts lr <= 1 /\ attempted_bytes lr <= pr /\ length lr <= 2).
  2:{ destruct T as (T1 & T2 & T3 & T4). rewrite stretched_app, attempts_app, bytes_app, app_length, T1, F1. repeat split; lia. }
  unfold lr. clear lr F1 F2 F3 F4 M M1. destruct (run lib _) as [[ko ki]| |]; [|cbn; repeat split; lia..].
  rewrite requests_bind. cbn [requests run app]. destruct ko as [pk|]; [|cbn; repeat split; lia..].
  rewrite requests_bind. cbn [requests run app]. destruct (ensure _ _) as [u'|e|]; [|cbn; repeat split; lia..].
  rewrite requests_bind. pose proof (fits_aead lib a (hd_protected hd) pk ENCRYPTED_HEADER_NONCE) as G.
  assert (G1 : length (requests lib (w_aead_decrypt_easy a (hd_protected hd) pk ENCRYPTED_HEADER_NONCE)) <= 1) by (unfold w_aead_decrypt_easy; destruct (Nat.ltb _ _); cbn; lia).
  assert (G2 : attempts (requests lib (w_aead_decrypt_easy a (hd_protected hd) pk ENCRYPTED_HEADER_NONCE)) <= 1) by (unfold w_aead_decrypt_easy; destruct (Nat.ltb _ _); cbn; lia).
  destruct G as (H1 & _ & H3 & _).
  match goal with |- context [requests lib (w_aead_decrypt_easy ?a ?b ?c ?d) ++ ?l] => set (lr := l) end.
  assert (T : stretched lr = [] /\ attempts lr = 0 /\ attempted_bytes lr = 0 /\ length lr <= 1).
  2:{ destruct T as (T1 & T2 & T3 & T4). rewrite stretched_app, attempts_app, bytes_app, app_length, H1, T1, T2, T3. fold pr in H3. repeat split; lia. }
  unfold lr. clear lr H1 H3 G1 G2. destruct (run lib _) as [po| |]; [|cbn; repeat split; lia..].
  rewrite requests_bind. cbn [requests run app]. destruct po as [p|]; [|cbn; repeat split; lia].
  rewrite requests_bind. cbn [requests run app]. destruct (decode_protected p) as [q|]; [|cbn; repeat split; lia].
  rewrite requests_bind. cbn [requests run app]. destruct (check_chunk_size _) as [u2| |]; [|cbn; repeat split; lia..].
  rewrite requests_bind. cbn [requests run app]. match goal with |- context [match (if ?b then ?x else ?y) with _ => _ end] => destruct (if b then x else y) as [u3| |] end; [|cbn; repeat split; lia..].
  rewrite requests_bind. cbn [requests run app certain]. destruct (answer lib a (AskHash s)); cbn; repeat split; lia.
Qed.

(** Without a readable header nothing is asked for. *)
Lemma unreadable_no_requests s D : decode_header s = None -> requests lib (w_decrypt_header (available lib) s D) = [].
Proof. intros E. unfold w_decrypt_header. rewrite E. reflexivity. Qed.
(** A file that opens: every password was stretched. *)
Lemma opened_requests s D c : decrypt_header lib s D = Ok c -> stretched (requests lib (w_decrypt_header (available lib) s D)) = passwords D.
Proof.
  intros H. destruct (header_requests s D) as ((rest & P) & _). rewrite run_header in H. revert P H.
  unfold w_decrypt_header. rewrite requests_bind, run_bind. cbn [requests run app].
  destruct (decode_header s) as [hd|]; cbn [bind]; [|discriminate]. rewrite requests_bind, run_bind. cbn [requests run app].
  destruct (w_cryptosys_from_proto _ _) as [a|e|]; cbn [bind]; try discriminate. rewrite requests_bind, run_bind. cbn [requests run app].
  destruct (ensure _ _) as [u|e|]; cbn [bind]; try discriminate. rewrite requests_bind, run_bind. destruct (decryptors_spec lib a (hd_ephemeral_pk hd) D) as (_ & _ & _ & _ & R).
  destruct (run lib (w_decryptors a (hd_ephemeral_pk hd) D)) as [ds| |]; cbn [bind]; try discriminate. destruct (R ds eq_refl) as (_ & _ & Str).
  rewrite stretched_app, Str. intros P _. rewrite <- app_assoc in P. apply (f_equal (@length _)) in P. rewrite !app_length in P.
  match goal with |- _ ++ ?l = _ => destruct l; [apply app_nil_r|cbn [length] in P; lia] end.
Qed.
End Header.

(** ** Depth *)

Fixpoint nest (n : nat) : kdata := match n with O => KComp 0 [] | S n => KComp 0 [(0%N, nest n)] end.
Definition nested (n : nat) : header := mkHeader None [] (Some (0%N, [(0%N, nest n)])) [].
Lemma nest_depth n : depth (nest n) = S n.
Proof. induction n as [|n IH]; [reflexivity|]. cbn [nest depth map fold_right snd]. rewrite IH. lia. Qed.
Lemma varint_short n : length (varint n) <= 10.
Proof.
  unfold varint. generalize 10%nat. intros fuel. revert n. induction fuel as [|fuel IH]; intros n; [cbn; lia|]. cbn [varint_go].
  destruct (n <? 128)%N; cbn [length]; [lia|]. specialize (IH (n / 128)%N). lia.
Qed.
Lemma enc_len_short tag b : (tag < 16)%N -> length (enc_len tag b) <= length b + 11.
Proof.
  intros T. unfold enc_len, enc_key. rewrite !app_length. pose proof (varint_short (lenN b)).
  assert (length (varint (tag * 8 + 2)) = 1); [|lia]. unfold varint. cbn [varint_go]. replace (tag * 8 + 2 <? 128)%N with true; [reflexivity|]. symmetry. apply N.ltb_lt. lia.
Qed.
Lemma nest_length n : length (enc_kdata (nest n)) <= 22 * n + 11.
Proof.
  induction n as [|n IH].
  - cbn [nest enc_kdata map concat]. pose proof (enc_len_short 3 (enc_uint64 1 0 ++ []) eq_refl) as H. cbn [enc_uint64 N.eqb app length] in H. exact H.
  - change (enc_kdata (nest (S n))) with (enc_len 3 (enc_uint64 1 0 ++ concat [enc_len 2 (enc_uint64 1 0 ++ enc_kdata (nest n))])).
    cbn [enc_uint64 N.eqb app concat]. rewrite app_nil_r. pose proof (enc_len_short 3 (enc_len 2 (enc_kdata (nest n))) eq_refl). pose proof (enc_len_short 2 (enc_kdata (nest n)) eq_refl). lia.
Qed.
Lemma nested_length n : length (encode_header (nested n)) <= 22 * n + 33.
Proof.
  unfold encode_header, nested. cbn [hd_family hd_ephemeral_pk hd_payload_key hd_protected app enc_bytes]. rewrite app_nil_r.
  unfold enc_ckey. cbn [fst snd map concat]. unfold enc_kparts. cbn [fst snd enc_uint64 N.eqb app]. rewrite app_nil_r.
  pose proof (enc_len_short 7 (enc_len 2 (enc_kdata (nest n))) eq_refl). pose proof (enc_len_short 2 (enc_kdata (nest n)) eq_refl). pose proof (nest_length n). lia.
Qed.

(** How much work opening a header is. *)
From Coq.Strings Require Import Byte String.
From Coq Require Import List NArith Bool PeanoNat Lia.
From Verif Require Import Base BaseFacts Shamir Errors HeaderIo Crypto Proto HeaderCrypto Work WorkSpec WorkProofs.
Import ListNotations.

(** ** Sizes of decoded messages *)

Fixpoint ksize (d : kdata) : nat :=
  match d with KNone => 0 | KEnc b => 2 + length b | KComp _ parts => 2 + list_sum (map (fun p => 2 + ksize (snd p)) parts) end.
Definition csize (k : ckey) : nat := list_sum (map (fun p => 2 + ksize (snd p)) (snd k)).
Definition fsize (f : N * wire) : nat := 2 + match snd f with WLen b => length b | _ => 0 end.

Lemma dec_varint_shorter b v b' : dec_varint b = Some (v, b') -> S (length b') <= length b.
Proof.
  unfold dec_varint. generalize 10%nat at 1. intros fuel. generalize 1%N at 1. generalize 0%N at 1. revert b.
  induction fuel as [|fuel IH]; intros b acc sh H; [discriminate H|]. destruct b as [|x b]; [discriminate H|]. cbn [dec_varint_go] in H.
  destruct (b2n x <? 128)%N; [injection H as _ <-; cbn; lia|]. apply IH in H. cbn. lia.
Qed.
Lemma take_length n b v b' : take n b = Some (v, b') -> length v + length b' = length b.
Proof.
  unfold take. destruct (lenN b <? n)%N; [discriminate|]. intros [= <- <-]. rewrite <- app_length, firstn_skipn. reflexivity.
Qed.
Lemma dec_field_size b tag w b' : dec_field b = Some (tag, w, b') -> fsize (tag, w) + length b' <= length b.
Proof.
  unfold dec_field. destruct (dec_varint b) as [[key b1]|] eqn:E; [|discriminate]. apply dec_varint_shorter in E.
  destruct (two32 <=? key)%N; [discriminate|]. destruct (key / 8 <? 1)%N; [discriminate|].
  assert (T : forall n v r, take (N.pos n) b1 = Some (v, r) -> 1 <= length v).
  { intros n v r. unfold take. destruct (lenN b1 <? N.pos n)%N eqn:L; [discriminate|]. apply N.ltb_ge in L. intros [= <- _]. rewrite firstn_length. unfold lenN in L. lia. }
  destruct (key mod 8)%N as [|[[q|[|[q|q|]|]|]|[q|q|]|]]; try discriminate;
  first
   [ destruct (dec_varint b1) as [[n b2]|] eqn:E2; [|discriminate]; apply dec_varint_shorter in E2;
     first [ intros [= <- <- <-]; unfold fsize; cbn; lia
           | destruct (take n b2) as [[v b3]|] eqn:Et; [|discriminate]; apply take_length in Et; intros [= <- <- <-]; unfold fsize; cbn [snd]; lia ]
   | match goal with |- context [take ?n b1] => destruct (take n b1) as [[v b3]|] eqn:Et; [|discriminate]; pose proof (T _ _ _ Et); apply take_length in Et; intros [= <- <- <-]; unfold fsize; cbn [snd]; lia end ].
Qed.
Lemma dec_fields_size b l : dec_fields b = Some l -> list_sum (map fsize l) <= length b.
Proof.
  unfold dec_fields. generalize (length b) at 1. intros fuel. revert b l. induction fuel as [|fuel IH]; intros b l H; destruct b as [|x b].
  - injection H as <-. cbn. lia.
  - discriminate H.
  - injection H as <-. cbn. lia.
  - cbn [dec_fields_go] in H. destruct (dec_field (x :: b)) as [[[tag w] b']|] eqn:E; [|discriminate H]. apply dec_field_size in E.
    destruct (dec_fields_go fuel b') as [l'|] eqn:E'; [|discriminate H]. injection H as <-. apply IH in E'. cbn [map list_sum fold_right] in *. unfold list_sum in E'. lia.
Qed.
Lemma merge_size {A} (size : A -> nat) f : (forall a x a', f a x = Some a' -> size a' <= size a + fsize x) ->
  forall l a a', merge_fields f a l = Some a' -> size a' <= size a + list_sum (map fsize l).
Proof.
  intros H. induction l as [|x l IH]; intros a a' M; cbn [merge_fields] in M.
  - injection M as <-. cbn. lia.
  - destruct (f a x) as [a1|] eqn:E; [|discriminate M]. apply H in E. apply IH in M. cbn [map list_sum fold_right] in *. unfold list_sum in *. lia.
Qed.
Lemma message_size {A} (size : A -> nat) f b a a' : (forall a x a', f a x = Some a' -> size a' <= size a + fsize x) ->
  dec_message f a b = Some a' -> size a' <= size a + length b.
Proof.
  intros H M. unfold dec_message in M. destruct (dec_fields b) as [l|] eqn:E; [|discriminate M]. apply dec_fields_size in E. apply (merge_size size f H) in M. lia.
Qed.
Lemma merge_ckey_size fuel : forall k f k', merge_ckey fuel k f = Some k' -> csize k' <= csize k + fsize f.
Proof.
  induction fuel as [|fuel IH]; intros [t parts] [tag w] k' H; [discriminate H|]. cbn [merge_ckey] in H.
  destruct tag as [|[p|[p|p|]|]]; try (injection H as <-; lia).
  - destruct w; try discriminate H. match type of H with match dec_message ?g _ _ with _ => _ end = _ => set (mk := g) in H end.
    destruct (dec_message mk (0%N, KNone) b) as [p|] eqn:E; [|discriminate H]. injection H as <-.
    assert (L : ksize (snd p) <= ksize (snd (0%N, KNone)) + length b).
    { apply (message_size (fun p => ksize (snd p)) mk _ (0%N, KNone) p); [|exact E]. clear E p. intros p [tag w] p' M. unfold mk in M.
      destruct tag as [|[q|[q|q|]|]]; try (injection M as <-; lia).
      - destruct q as [q|q|]; try (injection M as <-; lia). destruct w; try discriminate M.
        destruct (dec_message (merge_ckey fuel) (0%N, []) b0) as [[t' l]|] eqn:E; [|discriminate M]. injection M as <-.
        apply (message_size csize _ _ _ _ IH) in E. unfold csize in E. cbn [map snd list_sum fold_right ksize fsize] in *. unfold fsize. cbn [snd]. unfold list_sum in *. lia.
      - destruct w; try discriminate M. injection M as <-. cbn [snd ksize]. unfold fsize. cbn [snd]. lia.
      - destruct w; try discriminate M. injection M as <-. cbn [snd]. lia. }
    cbn [snd ksize] in L. unfold csize. cbn [snd]. rewrite map_app, list_sum_app. unfold fsize. cbn. lia.
  - destruct w; try discriminate H. injection H as <-. unfold csize. cbn [snd]. lia.
Qed.
Definition hsize (h : header) : nat := match hd_payload_key h with Some k => csize k | None => 0 end + length (hd_protected h).
Lemma decode_size s h : decode_header s = Some h -> hsize h <= length s.
Proof.
  intros H. unfold decode_header in H. apply (message_size hsize) in H; [exact H|]. clear. generalize (S (length s)). intros fuel h [tag w] h' M. unfold merge_header in M.
  destruct tag as [|[[[q|q|]|[q|q|]|]|[[[q|q|]|[q|q|]|]|[[q|q|]|[[q|q|]|q|]|]|]|]]; try (injection M as <-; unfold hsize; lia).
  all: destruct w; try discriminate M.
  - destruct (dec_message (merge_ckey fuel) _ b) as [k|] eqn:E; [|discriminate M]. injection M as <-. apply (message_size csize _ _ _ _ (merge_ckey_size fuel)) in E.
    unfold hsize, fsize. cbn [hd_payload_key hd_protected snd]. destruct (hd_payload_key h); [lia|]. unfold csize in E at 2. cbn in E. lia.
  - injection M as <-. unfold hsize. cbn [hd_payload_key hd_protected]. lia.
  - injection M as <-. unfold hsize, fsize. cbn [hd_payload_key hd_protected snd]. lia.
  - destruct (dec_message merge_libsodium 0%N b); [|discriminate M]. injection M as <-. unfold hsize. cbn [hd_payload_key hd_protected]. lia.
Qed.

(** ** Counting requests *)

Lemma stretched_app l l' : stretched (l ++ l') = stretched l ++ stretched l'.
Proof. induction l as [|r l IH]; [reflexivity|]. destruct r; cbn [app stretched]; rewrite IH; reflexivity. Qed.
Lemma attempts_app l l' : attempts (l ++ l') = attempts l + attempts l'.
Proof. induction l as [|r l IH]; [reflexivity|]. destruct r; cbn [app attempts]; rewrite IH; reflexivity. Qed.
Lemma bytes_app l l' : attempted_bytes (l ++ l') = attempted_bytes l + attempted_bytes l'.
Proof. induction l as [|r l IH]; [reflexivity|]. destruct r; cbn [app attempted_bytes]; rewrite IH; lia. Qed.

(** No passwords are stretched, and the work fits [k] copies of [n] bytes in pieces of at least 16. *)
Definition fits (k n : nat) (l : list request) : Prop :=
  stretched l = [] /\ 20 * attempts l <= k * (4 + n) /\ attempted_bytes l <= k * n /\ 10 * length l <= k * (4 + n).
Definition fits4 (k n : nat) (l : list request) : Prop :=
  stretched l = [] /\ 20 * attempts l <= k * n /\ attempted_bytes l <= k * n /\ 10 * length l <= k * n.
Lemma fits4_nil k n : fits4 k n [].
Proof. unfold fits4. cbn. repeat split; lia. Qed.
Lemma fits4_app k n n' l l' : fits4 k n l -> fits4 k n' l' -> fits4 k (n + n') (l ++ l').
Proof.
  intros (A1 & A2 & A3 & A4) (B1 & B2 & B3 & B4). unfold fits4. rewrite stretched_app, attempts_app, bytes_app, app_length, A1, B1. repeat split; lia.
Qed.
Lemma fits4_more k n n' l : n <= n' -> fits4 k n l -> fits4 k n' l.
Proof. intros L (A1 & A2 & A3 & A4). unfold fits4. pose proof (Nat.mul_le_mono_l _ _ k L). repeat split; auto; lia. Qed.

Section Count.
Variable lib : crypto_lib.

Lemma fits_aead a c k n : fits 1 (length c) (requests lib (w_aead_decrypt_easy a c k n)).
Proof.
  unfold fits, w_aead_decrypt_easy. change AEAD_MAC_LEN with 16. destruct (Nat.ltb (length c) 16) eqn:L; [cbn; repeat split; lia|]. apply Nat.ltb_ge in L.
  cbn [requests stretched attempts attempted_bytes length]. rewrite firstn_length, skipn_length. repeat split; lia.
Qed.
Lemma fits_box a c pk sk n : fits 1 (length c) (requests lib (w_box_decrypt_easy a c pk sk n)).
Proof.
  unfold fits, w_box_decrypt_easy. change BOX_MAC_LEN with 16. destruct (Nat.ltb (length c) 16) eqn:L; [cbn; repeat split; lia|]. apply Nat.ltb_ge in L.
  cbn [requests]. destruct (answer lib a (AskShared pk sk)); cbn [requests stretched attempts attempted_bytes length]; rewrite ?firstn_length, ?skipn_length; repeat split; lia.
Qed.
Definition modest (d : wdecryptor) : Prop := forall c i, fits 1 (length c) (requests lib (d c i)).

(** Making the decryptors. *)
Lemma decryptors_spec a pk D :
  let l := requests lib (w_decryptors a pk D) in
  (exists rest, passwords D = stretched l ++ rest) /\ attempts l = 0 /\ attempted_bytes l = 0 /\ length l <= 2 * length D /\
  forall ds, run lib (w_decryptors a pk D) = Ok ds -> length ds = length D /\ Forall modest ds /\ stretched l = passwords D.
Proof.
  induction D as [|c D IH]; cbv zeta in *.
  { cbn. repeat split; try lia; [exists []; reflexivity|injection H as <-; reflexivity|injection H as <-; constructor]. }
  cbn [w_decryptors]. rewrite requests_bind, run_bind.
  set (lD := requests lib (w_decryptors a pk D)) in *. set (rD := run lib (w_decryptors a pk D)) in *.
  destruct IH as ((rest & IP) & IA & IB & IL & IR).
  (* a credential that has become a decryptor *)
  assert (K : forall d l pw, modest d -> stretched l = pw -> attempts l = 0 -> attempted_bytes l = 0 -> length l <= 2 -> passwords (c :: D) = pw ++ passwords D ->
    let all := l ++ requests lib (wbind (w_decryptors a pk D) (fun ds => Done (Ok (d :: ds)))) in
    (exists rest, passwords (c :: D) = stretched all ++ rest) /\ attempts all = 0 /\ attempted_bytes all = 0 /\ length all <= 2 * length (c :: D) /\
    forall ds, run lib (wbind (w_decryptors a pk D) (fun ds => Done (Ok (d :: ds)))) = Ok ds -> length ds = length (c :: D) /\ Forall modest ds /\ stretched all = passwords (c :: D)).
  { intros d l pw Md Sl Al Bl Ll P all. unfold all. rewrite requests_bind. fold lD rD.
    assert (E : match rD with Ok ds => requests lib (Done (Ok (d :: ds))) | _ => [] end = []) by (destruct rD; reflexivity). rewrite E, app_nil_r.
    rewrite stretched_app, attempts_app, bytes_app, app_length, Sl, Al, Bl, IA, IB. split; [exists rest; rewrite P, IP, app_assoc; reflexivity|].
    split; [reflexivity|]. split; [reflexivity|]. split; [cbn [length]; lia|]. intros ds. rewrite run_bind. fold rD. destruct rD as [ds'| |]; cbn [bind run]; intros H; try discriminate H.
    injection H as <-. destruct (IR ds' eq_refl) as (R1 & R2 & R3). split; [cbn [length]; lia|]. split; [constructor; assumption|]. rewrite R3, P. reflexivity. }
  assert (Z : forall l pw, stretched l = pw -> (exists r, passwords (c :: D) = pw ++ r) -> attempts l = 0 -> attempted_bytes l = 0 -> length l <= 2 ->
    (exists rest, passwords (c :: D) = stretched (l ++ []) ++ rest) /\ attempts (l ++ []) = 0 /\ attempted_bytes (l ++ []) = 0 /\ length (l ++ []) <= 2 * length (c :: D)).
  { intros l pw Sl (r & P) Al Bl Ll. rewrite app_nil_r, Sl, Al, Bl. split; [exists r; exact P|]. repeat split; cbn [length]; lia. }
  destruct c as [p|k|k|k|subs n t]; cbn [w_decryptor_from_credential].
  - (* password *)
    cbn [w_recipient_secret_key certain wbind]. cbn [requests run].
    destruct (answer lib a (AskHmac pk KDF_SALT_NONCE)) as [h|]; unfold certain; cbn [requests run wbind bind].
    + destruct (answer lib a (AskKdf p (firstn KDF_SALT_LEN h))) as [key|]; cbn [requests run wbind bind].
      * refine (K _ [AskHmac pk KDF_SALT_NONCE; AskKdf p (firstn KDF_SALT_LEN h)] [p] _ eq_refl eq_refl eq_refl (le_n _) eq_refl). intros c i. apply fits_aead.
      * destruct (Z [AskHmac pk KDF_SALT_NONCE; AskKdf p (firstn KDF_SALT_LEN h)] [p] eq_refl (ex_intro _ (passwords D) eq_refl) eq_refl eq_refl (le_n _)) as (Z1 & Z2 & Z3 & Z4).
        repeat split; try assumption; discriminate.
    + destruct (Z [AskHmac pk KDF_SALT_NONCE] [] eq_refl (ex_intro _ (p :: passwords D) eq_refl) eq_refl eq_refl (le_S _ _ (le_n _))) as (Z1 & Z2 & Z3 & Z4).
      repeat split; try assumption; discriminate.
  - cbn [w_recipient_secret_key certain wbind]. cbn [requests run].
    destruct (answer lib a (AskHmac (pk ++ k) SYMMETRIC_SECRET_NONCE)) as [key|]; cbn [requests run wbind bind].
    + refine (K _ [AskHmac (pk ++ k) SYMMETRIC_SECRET_NONCE] [] _ eq_refl eq_refl eq_refl (le_S _ _ (le_n _)) eq_refl). intros c i. apply fits_aead.
    + destruct (Z [AskHmac (pk ++ k) SYMMETRIC_SECRET_NONCE] [] eq_refl (ex_intro _ (passwords D) eq_refl) eq_refl eq_refl (le_S _ _ (le_n _))) as (Z1 & Z2 & Z3 & Z4).
      repeat split; try assumption; discriminate.
  - cbn [requests run bind app]. repeat split; try (cbn; lia); try discriminate. exists (passwords D). reflexivity.
  - cbn [requests run bind]. refine (K _ [] [] _ eq_refl eq_refl eq_refl (Nat.le_0_l _) eq_refl). intros c i. apply fits_box.
  - cbn [requests run bind app]. repeat split; try (cbn; lia); try discriminate. exists (passwords D). reflexivity.
Qed.

Lemma fits_try ds c i : Forall modest ds -> fits (length ds) (length c) (requests lib (w_try_decryptors ds c i)).
Proof.
  induction 1 as [|d ds M _ IH]; [cbn; unfold fits; cbn; repeat split; lia|]. cbn [w_try_decryptors]. rewrite requests_bind. destruct (M c i) as (A1 & A2 & A3 & A4).
  assert (T : fits (length ds) (length c) (match run lib (d c i) with Ok r => requests lib match r with Some k => Done (Ok (Some k)) | None => w_try_decryptors ds c i end | _ => [] end)).
  { destruct (run lib (d c i)) as [[k|]| |]; try exact IH; unfold fits; cbn; repeat split; lia. }
  destruct T as (B1 & B2 & B3 & B4). unfold fits. rewrite stretched_app, attempts_app, bytes_app, app_length, A1, B1. cbn [length]. repeat split; lia.
Qed.
Lemma fits_smap {A B S} k (size : A -> nat) (f : A -> S -> work (B * S)) l :
  Forall (fun x => forall s, fits4 k (size x) (requests lib (f x s))) l ->
  forall s, fits4 k (list_sum (map size l)) (requests lib (w_smap f l s)).
Proof.
  induction 1 as [|x l E _ IH]; intros s; [apply fits4_nil|]. cbn [w_smap]. rewrite requests_bind. fold (w_smap f). change (list_sum (map size (x :: l))) with (size x + list_sum (map size l)).
  apply fits4_app; [apply E|]. destruct (run lib (f x s)) as [[b s']| |]; [|apply fits4_more with 0; [lia|apply fits4_nil]..].
  rewrite requests_bind. rewrite <- (Nat.add_0_r (list_sum (map size l))). apply fits4_app; [apply IH|]. destruct (run lib (w_smap f l s')) as [[bs s'']| |]; apply fits4_nil.
Qed.
Lemma fits_key_data ds : Forall modest ds -> forall d i, fits4 (length ds) (2 + ksize d) (requests lib (w_decrypt_key_data ds d i)).
Proof.
  intros M. fix IH 1. intros [|b|t parts] i.
  - apply fits4_more with 0; [lia|apply fits4_nil].
  - cbn [w_decrypt_key_data ksize]. rewrite requests_bind. assert (E : match run lib (w_try_decryptors ds b i) with Ok r => requests lib (Done (Ok (r, wrap32 (i + 1)))) | _ => [] end = []) by (destruct (run lib _); reflexivity).
    rewrite E, app_nil_r. destruct (fits_try ds b i M) as (A1 & A2 & A3 & A4). unfold fits4. repeat split; try assumption; lia.
  - cbn [w_decrypt_key_data ksize]. rewrite requests_bind. apply fits4_more with (list_sum (map (fun p => 2 + ksize (snd p)) parts) + 0); [lia|]. apply fits4_app.
    + apply fits_smap. induction parts as [|[num d] parts IHp]; [constructor|]. constructor; [|exact IHp]. intros [ki pi]. cbn [snd]. rewrite requests_bind.
      rewrite <- (Nat.add_0_r (2 + ksize d)). apply fits4_app; [apply IH|]. destruct (run lib (w_decrypt_key_data ds d ki)) as [[o k]| |]; try apply fits4_nil.
      rewrite requests_bind. cbn [requests run app]. destruct (distribute_key_data _ _ _); apply fits4_nil.
    + destruct (run lib _) as [[dec [ki np]]| |]; try apply fits4_nil. rewrite requests_bind. cbn [requests run app]. destruct (recombine _ _ _); apply fits4_nil.
Qed.
End Count.

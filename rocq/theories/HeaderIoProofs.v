From Coq Require Import List NArith Bool Lia Arith.
From Coq.Strings Require Import Byte.
From Verif Require Import Base BaseFacts Shamir Errors Io HeaderIo HeaderIoSpec.
Import ListNotations.

Lemma flat_push_back d s : flat (push_back d s) = d ++ flat s.
Proof. destruct d; reflexivity. Qed.

Lemma ends_push_back d s : ends_in_error (push_back d s) = ends_in_error s.
Proof. destruct d; reflexivity. Qed.

Lemma read_exact_enough s : forall n,
  n <= length (flat s) ->
  exists s', read_exact n s = Ok (firstn n (flat s), s') /\
             flat s' = skipn n (flat s) /\ ends_in_error s' = ends_in_error s.
Proof.
  induction s as [|e s IH]; intros n Hn.
  - destruct n; [|simpl in Hn; lia]. exists []. auto.
  - destruct n as [|n].
    { exists (e :: s). split; auto. }
    destruct e as [[|b d]| |]; try (simpl in Hn; lia).
    + cbn [flat] in Hn. cbn [read_exact flat ends_in_error].
      destruct (Nat.ltb_spec (length (b :: d)) (S n)) as [Hl|Hl].
      * rewrite app_length in Hn.
        destruct (IH (S n - length (b :: d))) as (s' & E & F & G); [lia|].
        rewrite E. cbn [bind]. exists s'. rewrite firstn_app, skipn_app, F.
        rewrite (firstn_all2 (b :: d)) by lia. rewrite (skipn_all2 (b :: d)) by lia. auto.
      * exists (push_back (skipn (S n) (b :: d)) s).
        rewrite flat_push_back, ends_push_back, firstn_app, skipn_app.
        replace (S n - length (b :: d)) with 0 by lia. cbn [firstn]. rewrite app_nil_r.
        cbn [skipn]. auto.
    + cbn [flat] in *. cbn [read_exact ends_in_error]. apply IH. exact Hn.
Qed.

Lemma read_exact_short s : forall n,
  length (flat s) < n ->
  read_exact n s = Err (if ends_in_error s then EIo else EUnexpectedEof).
Proof.
  induction s as [|e s IH]; intros n Hn.
  - destruct n; [simpl in Hn; lia|]. reflexivity.
  - destruct n as [|n]; [lia|].
    destruct e as [[|b d]| |]; try reflexivity.
    + cbn [flat] in Hn. cbn [read_exact ends_in_error]. rewrite app_length in Hn.
      destruct (Nat.ltb_spec (length (b :: d)) (S n)) as [Hl|Hl]; [|lia].
      rewrite IH by lia. reflexivity.
    + cbn [read_exact ends_in_error]. apply IH. exact Hn.
Qed.

Lemma read_exact_ok n s d s' :
  read_exact n s = Ok (d, s') ->
  n <= length (flat s) /\ d = firstn n (flat s) /\ flat s' = skipn n (flat s) /\
  ends_in_error s' = ends_in_error s.
Proof.
  intros H. destruct (le_lt_dec n (length (flat s))) as [L|L].
  - destruct (read_exact_enough s n L) as (t & E & F & G). rewrite H in E. inversion E; subst. auto.
  - rewrite (read_exact_short s n L) in H. discriminate.
Qed.

Lemma read_exact_no_panic n s : read_exact n s <> Panic.
Proof.
  destruct (le_lt_dec n (length (flat s))) as [L|L].
  - destruct (read_exact_enough s n L) as (t & E & F & G). congruence.
  - rewrite (read_exact_short s n L). destruct (ends_in_error s); congruence.
Qed.

(** ** Framing *)

(** The frame as one concrete byte string. *)
Definition frame_of (h : bytes) : bytes :=
  FILE_SIGNATURE ++ le_bytes 4 (lenN h) ++ h ++ repeat x00 (N.to_nat (padding_len (lenN h) 8)).

Lemma padding_lt n : (padding_len n 8 < 8)%N.
Proof.
  unfold padding_len. pose proof (N.mod_lt n 8 ltac:(discriminate)) as H.
  revert H. generalize (n mod 8)%N. intros m H. destruct (N.eqb_spec m 0); lia.
Qed.

Lemma padding_aligned n : ((n + padding_len n 8) mod 8 = 0)%N.
Proof.
  unfold padding_len. pose proof (N.mod_lt n 8 ltac:(discriminate)) as H.
  pose proof (N.div_mod n 8 ltac:(discriminate)) as D.
  destruct (N.eqb_spec (n mod 8) 0) as [E|E].
  - rewrite N.add_0_r. exact E.
  - replace (n + (8 - n mod 8))%N with ((n / 8 + 1) * 8)%N; [apply N.mod_mul; discriminate|].
    revert H E D. generalize (n mod 8)%N, (n / 8)%N. intros. lia.
Qed.

Lemma padding_unique n p : (p < 8)%N -> ((n + p) mod 8 = 0)%N -> p = padding_len n 8.
Proof.
  intros Hp H. pose proof (padding_lt n). pose proof (padding_aligned n) as A.
  pose proof (N.div_mod (n + p) 8 ltac:(discriminate)).
  pose proof (N.div_mod (n + padding_len n 8) 8 ltac:(discriminate)). lia.
Qed.

Lemma frame_of_length h :
  lenN (frame_of h) = (8 + lenN h + padding_len (lenN h) 8)%N.
Proof.
  unfold frame_of, lenN. rewrite !app_length, le_bytes_length, repeat_length. cbn [length FILE_SIGNATURE]. lia.
Qed.

Lemma le_value4 b0 b1 b2 b3 :
  le_value [b0; b1; b2; b3] = (b2n b0 + 256 * b2n b1 + 65536 * b2n b2 + 16777216 * b2n b3)%N.
Proof. cbn [le_value]. lia. Qed.

Lemma Forall_zero_repeat z : Forall (eq x00) z -> z = repeat x00 (length z).
Proof. induction 1; simpl; congruence. Qed.

Lemma repeat_Forall_zero n : Forall (eq x00) (repeat x00 n).
Proof. induction n; simpl; constructor; auto. Qed.

Lemma frame_spec h f : (lenN h < two32)%N -> (is_frame h f <-> f = frame_of h).
Proof.
  intros Hb. split.
  - intros (b0 & b1 & b2 & b3 & z & -> & Hl & Hz & Hzl & k & Hk).
    unfold frame_of. rewrite <- le_value4 in Hl.
    assert (E : le_bytes 4 (lenN h) = [b0; b1; b2; b3]).
    { unfold lenN. rewrite Hl. exact (le_bytes_le_value [b0; b1; b2; b3]). }
    rewrite E. apply Forall_zero_repeat in Hz. rewrite Hz at 1.
    replace (length z) with (N.to_nat (padding_len (lenN h) 8)); [reflexivity|].
    rewrite <- (padding_unique (lenN h) (lenN z)); unfold lenN; [lia|lia|].
    rewrite !app_length in Hk. cbn [length] in Hk.
    replace (N.of_nat (length h) + N.of_nat (length z))%N with (N.of_nat (k - 1) * 8)%N by lia.
    apply N.mod_mul. discriminate.
  - intros ->. unfold is_frame.
    assert (L : length (le_bytes 4 (lenN h)) = 4) by apply le_bytes_length.
    pose proof (le_value_le_bytes 4 (lenN h)) as V.
    change (256 ^ N.of_nat 4)%N with two32 in V. rewrite N.mod_small in V by exact Hb.
    pose proof (frame_of_length h) as FL. unfold frame_of in *.
    destruct (le_bytes 4 (lenN h)) as [|b0 [|b1 [|b2 [|b3 [|]]]]]; try discriminate L.
    exists b0, b1, b2, b3, (repeat x00 (N.to_nat (padding_len (lenN h) 8))).
    split; [reflexivity|]. split; [unfold lenN in V; rewrite <- V, le_value4; reflexivity|].
    split; [apply repeat_Forall_zero|]. rewrite repeat_length.
    pose proof (padding_lt (lenN h)). split; [lia|].
    exists (N.to_nat ((lenN h + padding_len (lenN h) 8) / 8 + 1)).
    pose proof (padding_aligned (lenN h)) as A.
    pose proof (N.div_mod (lenN h + padding_len (lenN h) 8) 8 ltac:(discriminate)).
    unfold lenN in FL at 1. lia.
Qed.

Lemma forallb_zero z : forallb (fun b => beqb b x00) z = true <-> z = repeat x00 (length z).
Proof.
  rewrite forallb_forall. split.
  - intros H. induction z as [|x z IH]; [reflexivity|]. simpl. f_equal.
    + apply beqb_eq, H. left; reflexivity.
    + apply IH. intros y Hy. apply H. right; exact Hy.
  - intros -> x Hx. apply repeat_spec in Hx. subst. reflexivity.
Qed.

Lemma firstn_app_le {A} n (l k : list A) : n <= length l -> firstn n (l ++ k) = firstn n l.
Proof. intros H. rewrite firstn_app. replace (n - length l) with 0 by lia. simpl. apply app_nil_r. Qed.

Lemma skipn_app_le {A} n (l k : list A) : n <= length l -> skipn n (l ++ k) = skipn n l ++ k.
Proof. intros H. rewrite skipn_app. replace (n - length l) with 0 by lia. reflexivity. Qed.

(** Reading succeeds on every well framed header. *)
Lemma read_header_complete s h rest :
  (1 <= lenN h <= MAX_HEADER_LEN)%N ->
  flat s = frame_of h ++ rest ->
  exists s', read_header s = Ok (h, lenN (frame_of h), s') /\ flat s' = rest /\
             ends_in_error s' = ends_in_error s.
Proof.
  intros [H1 H2] HF. unfold MAX_HEADER_LEN in H2.
  pose proof (frame_of_length h) as FL.
  pose proof (padding_lt (lenN h)) as PL.
  assert (L4 : length (le_bytes 4 (lenN h)) = 4) by apply le_bytes_length.
  unfold read_header.
  destruct (read_exact_enough s PREHEADER_LEN) as (s1 & E1 & F1 & G1).
  { rewrite HF, app_length. unfold lenN in FL at 1. unfold PREHEADER_LEN. lia. }
  rewrite E1. cbn [bind].
  assert (P : firstn PREHEADER_LEN (flat s) = FILE_SIGNATURE ++ le_bytes 4 (lenN h)).
  { rewrite HF. unfold frame_of. rewrite app_assoc, <- !app_assoc, app_assoc.
    replace PREHEADER_LEN with (length (FILE_SIGNATURE ++ le_bytes 4 (lenN h)))
      by (rewrite app_length, L4; reflexivity).
    apply firstn_app_exact. }
  assert (Q : flat s1 = (h ++ repeat x00 (N.to_nat (padding_len (lenN h) 8))) ++ rest).
  { rewrite F1, HF. unfold frame_of. rewrite app_assoc, <- !app_assoc, app_assoc.
    replace PREHEADER_LEN with (length (FILE_SIGNATURE ++ le_bytes 4 (lenN h)))
      by (rewrite app_length, L4; reflexivity).
    rewrite skipn_app_exact. reflexivity. }
  rewrite P.
  change (firstn 4 (FILE_SIGNATURE ++ le_bytes 4 (lenN h))) with FILE_SIGNATURE.
  change (skipn 4 (FILE_SIGNATURE ++ le_bytes 4 (lenN h))) with (le_bytes 4 (lenN h)).
  rewrite bytes_eqb_refl. cbn [ensure bind].
  rewrite le_value_le_bytes. change (256 ^ N.of_nat 4)%N with two32.
  rewrite N.mod_small by (unfold two32; lia).
  destruct (N.ltb_spec 0 (lenN h)); [|lia]. cbn [ensure bind].
  unfold MAX_HEADER_LEN. destruct (N.leb_spec (lenN h) 16777216); [|lia]. cbn [ensure bind].
  unfold FILE_ALIGNMENT. rewrite padding_aligned. cbn [N.eqb assert bind].
  set (p := padding_len (lenN h) 8) in *.
  assert (LB : length (h ++ repeat x00 (N.to_nat p)) = N.to_nat (lenN h + p)).
  { rewrite app_length, repeat_length. unfold lenN. lia. }
  destruct (read_exact_enough s1 (N.to_nat (lenN h + p))) as (s2 & E2 & F2 & G2).
  { rewrite Q, app_length. lia. }
  rewrite E2. cbn [bind].
  assert (B : firstn (N.to_nat (lenN h + p)) (flat s1) = h ++ repeat x00 (N.to_nat p)).
  { rewrite Q, <- LB. apply firstn_app_exact. }
  rewrite B. replace (N.to_nat (lenN h)) with (length h) by (unfold lenN; lia).
  rewrite skipn_app_exact, firstn_app_exact.
  replace (forallb _ _) with true; [|symmetry; apply forallb_zero; rewrite repeat_length; reflexivity].
  cbn [ensure bind]. exists s2. split; [|split].
  - f_equal. f_equal. f_equal. change (N.of_nat PREHEADER_LEN) with 8%N. lia.
  - rewrite F2, Q, <- LB. apply skipn_app_exact.
  - congruence.
Qed.

(** A successful read consumed exactly the frame of what it returned. *)
Lemma read_header_sound s h n s' :
  read_header s = Ok (h, n, s') ->
  (1 <= lenN h <= MAX_HEADER_LEN)%N /\ flat s = frame_of h ++ flat s' /\
  n = lenN (frame_of h) /\ ends_in_error s' = ends_in_error s.
Proof.
  unfold read_header. intros H.
  destruct (read_exact PREHEADER_LEN s) as [[pre s1]| |] eqn:E1; try discriminate. cbn [bind] in H.
  apply read_exact_ok in E1. destruct E1 as (L1 & -> & F1 & G1).
  destruct (bytes_eqb (firstn 4 (firstn PREHEADER_LEN (flat s))) FILE_SIGNATURE) eqn:ES; [|discriminate].
  cbn [ensure bind] in H. apply bytes_eqb_eq in ES.
  set (lb := skipn 4 (firstn PREHEADER_LEN (flat s))) in *.
  assert (LL : length lb = 4) by (unfold lb, PREHEADER_LEN in *; rewrite skipn_length, firstn_length; lia).
  set (hl := le_value lb) in *.
  destruct (N.ltb_spec 0 hl) as [P0|]; [|discriminate]. cbn [ensure bind] in H.
  destruct (N.leb_spec hl MAX_HEADER_LEN) as [P1|]; [|discriminate]. cbn [ensure bind] in H.
  unfold FILE_ALIGNMENT in H. rewrite padding_aligned in H. cbn [N.eqb assert bind] in H.
  set (p := padding_len hl 8) in *.
  destruct (read_exact (N.to_nat (hl + p)) s1) as [[buf s2]| |] eqn:E2; try discriminate. cbn [bind] in H.
  apply read_exact_ok in E2. destruct E2 as (L2 & -> & F2 & G2).
  set (buf := firstn (N.to_nat (hl + p)) (flat s1)) in *.
  destruct (forallb (fun b => beqb b x00) (skipn (N.to_nat hl) buf)) eqn:EZ; [|discriminate].
  cbn [ensure bind] in H. inversion H as [[Hh Hn Hs]]. subst s'. clear H.
  apply forallb_zero in EZ.
  assert (LB : length buf = N.to_nat (hl + p)) by (unfold buf; rewrite firstn_length; lia).
  assert (LH : lenN (firstn (N.to_nat hl) buf) = hl)
    by (unfold lenN; rewrite firstn_length; lia).
  rewrite Hn.
  assert (LP : length (skipn (N.to_nat hl) buf) = N.to_nat p) by (rewrite skipn_length; lia).
  rewrite <- Hn in *. clear Hn.
  split; [rewrite LH; lia|].
  assert (FR : flat s = frame_of (firstn (N.to_nat hl) buf) ++ flat s2).
  { unfold frame_of. rewrite LH. fold p. rewrite LP in EZ. rewrite <- EZ.
    rewrite firstn_skipn.
    replace (le_bytes 4 hl) with lb by (unfold hl; rewrite <- LL; symmetry; apply le_bytes_le_value).
    rewrite <- ES. rewrite <- !app_assoc, F2.
    unfold buf. rewrite firstn_skipn. rewrite F1. rewrite app_assoc.
    unfold lb. rewrite firstn_skipn. symmetry. apply firstn_skipn. }
  split; [exact FR|]. split; [|congruence].
  rewrite frame_of_length, LH. fold p. change (N.of_nat PREHEADER_LEN) with 8%N. reflexivity.
Qed.

Lemma read_header_no_panic s : read_header s <> Panic.
Proof.
  unfold read_header.
  destruct (read_exact PREHEADER_LEN s) as [[pre s1]|e|] eqn:E1;
    [|discriminate|exfalso; exact (read_exact_no_panic _ _ E1)].
  cbn [bind]. destruct (bytes_eqb _ _); [|discriminate]. cbn [ensure bind].
  destruct (0 <? le_value (skipn 4 pre))%N; [|discriminate]. cbn [ensure bind].
  destruct (le_value (skipn 4 pre) <=? MAX_HEADER_LEN)%N; [|discriminate]. cbn [ensure bind].
  unfold FILE_ALIGNMENT. rewrite padding_aligned. cbn [N.eqb assert bind].
  destruct (read_exact _ s1) as [[b s2]|e|] eqn:E2;
    [|discriminate|exfalso; exact (read_exact_no_panic _ _ E2)].
  cbn [bind]. destruct (forallb _ _); discriminate.
Qed.

(** ** Writing *)

Lemma write_all_ok w d r w' :
  write_all w d = (r, w') ->
  (room_for w (length d) /\ r = Ok tt /\ w_out w' = w_out w ++ d /\
   w_flush_ok w' = w_flush_ok w /\ (forall n, room_for w' n <-> room_for w (length d + n))) \/
  (~ room_for w (length d) /\ r = Err EIo /\ exists k, k < length d /\ w_out w' = w_out w ++ firstn k d).
Proof.
  unfold write_all, room_for. destruct (w_room w) as [room|] eqn:E.
  - destruct (Nat.leb_spec (length d) room) as [L|L]; intros H; inversion H; subst; cbn.
    + left. repeat split; auto; lia.
    + right. repeat split; [lia|]. exists room. auto.
  - intros H; inversion H; subst; cbn. left. repeat split; auto.
Qed.

Lemma write_header_spec w h :
  (lenN h <= MAX_HEADER_LEN)%N ->
  exists r w', write_header w h = (r, w') /\
    ((r = Ok tt /\ w_out w' = w_out w ++ frame_of h /\ room_for w (length (frame_of h)) /\
       (forall n, room_for w' n <-> room_for w (length (frame_of h) + n))) \/
     (r = Err EIo /\ ~ room_for w (length (frame_of h)) /\
       exists k, k < length (frame_of h) /\ w_out w' = w_out w ++ firstn k (frame_of h))).
Proof.
  intros HL. unfold write_header. destruct (N.leb_spec (lenN h) MAX_HEADER_LEN); [|lia]. cbn [negb].
  set (pre := FILE_SIGNATURE ++ le_bytes 4 (lenN h)).
  change FILE_ALIGNMENT with 8%N.
  set (pad := repeat x00 (N.to_nat (padding_len (lenN h) 8))).
  assert (FE : frame_of h = pre ++ h ++ pad).
  { unfold frame_of, pre, pad. rewrite <- app_assoc. reflexivity. }
  rewrite FE.
  destruct (write_all w pre) as [r1 w1] eqn:E1.
  destruct (write_all_ok _ _ _ _ E1) as [(R1 & -> & O1 & _ & C1)|(R1 & -> & k & K1 & O1)].
  2:{ exists (Err EIo), w1. split; [reflexivity|]. right. split; [reflexivity|].
      split; [unfold room_for in *; destruct (w_room w); rewrite ?app_length; [lia|tauto]|].
      exists k. rewrite app_length. split; [lia|]. rewrite O1, (firstn_app_le k pre) by lia. reflexivity. }
  destruct (write_all w1 h) as [r2 w2] eqn:E2.
  destruct (write_all_ok _ _ _ _ E2) as [(R2 & -> & O2 & _ & C2)|(R2 & -> & k & K2 & O2)].
  2:{ exists (Err EIo), w2. split; [reflexivity|]. right. split; [reflexivity|].
      split; [rewrite C1 in R2; unfold room_for in *; destruct (w_room w); rewrite ?app_length; [lia|tauto]|].
      exists (length pre + k). rewrite !app_length. split; [lia|].
      rewrite O2, O1, <- app_assoc, firstn_app_2, (firstn_app_le k h) by lia. reflexivity. }
  destruct (N.ltb_spec 0 (padding_len (lenN h) 8)) as [P|P].
  - destruct (write_all w2 (repeat x00 (N.to_nat (padding_len (lenN h) 8)))) as [r3 w3] eqn:E3.
    fold pad in E3.
    destruct (write_all_ok _ _ _ _ E3) as [(R3 & -> & O3 & _ & C3)|(R3 & -> & k & K3 & O3)].
    + exists (Ok tt), w3. split; [unfold pad in E3; exact E3|]. left. split; [reflexivity|].
      rewrite C2, C1 in R3. split; [rewrite O3, O2, O1, <- !app_assoc; reflexivity|].
      split; [rewrite !app_length; exact R3|].
      intros n. rewrite C3, C2, C1, !app_length, !Nat.add_assoc. reflexivity.
    + exists (Err EIo), w3. split; [unfold pad in E3; exact E3|]. right. split; [reflexivity|].
      rewrite C2, C1 in R3. split; [rewrite !app_length; exact R3|].
      exists (length pre + (length h + k)). rewrite !app_length. split; [lia|].
      rewrite O3, O2, O1, <- !app_assoc, !firstn_app_2. reflexivity.
  - assert (pad = []) as -> by (unfold pad; replace (padding_len (lenN h) 8) with 0%N by lia; reflexivity).
    rewrite app_nil_r. exists (Ok tt), w2. split; [reflexivity|]. left. split; [reflexivity|].
    rewrite C1 in R2. split; [rewrite O2, O1, <- app_assoc; reflexivity|].
    split; [rewrite !app_length; exact R2|].
    intros n. rewrite C2, C1, !app_length, !Nat.add_assoc. reflexivity.
Qed.

Lemma write_header_too_large w h :
  (MAX_HEADER_LEN < lenN h)%N -> write_header w h = (Err EHeaderTooLarge, w).
Proof.
  intros H. unfold write_header. destruct (N.leb_spec (lenN h) MAX_HEADER_LEN); [lia|]. reflexivity.
Qed.

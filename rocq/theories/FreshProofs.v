(** Proofs about the keys and nonces of several files. *)
From Coq.Strings Require Import Byte String.
From Coq Require Import List NArith Bool Lia Arith.
From Verif Require Import Base BaseFacts Shamir Errors Io Crypto Proto HeaderIo HeaderIoSpec HeaderIoProofs HeaderCrypto CredSpec StreamCrypto StreamSpec Pipeline StreamProofs2
  FileCrypto AuthSpec FileSpec FileProofs FileProofs2 HideSpec HideProofs HideProofs3 FreshSpec.
Import ListNotations.

Lemma made_recipients cs r l : forall from cts, length cts = length l ->
  (forall i c ct, nth_error l i = Some c -> nth_error cts i = Some ct -> exists m, sealed_for cs (public_of cs r) (private_of cs r) (from + i) c m ct) ->
  Forall2 (made_by cs) (uses_for_recipients cs r from l) cts.
Proof.
  unfold uses_for_recipients. induction l as [|c l IH]; intros from [|ct cts] HL H; try discriminate; [constructor|].
  cbn [length seq combine flat_map fst snd]. destruct (H 0 c ct eq_refl eq_refl) as (m & k & Hk & Hc). rewrite Nat.add_0_r in Hc.
  unfold recipient_key at 1. rewrite Hk. constructor.
  - destruct Hc as [[Hs ->]|[Hp ->]].
    + replace (by_public_key c) with false by (destruct c; try discriminate; reflexivity). exists [], m. reflexivity.
    + rewrite Hp. exists m. reflexivity.
  - apply (IH (S from)); [now injection HL|]. intros i c' ct' Hi Hct. replace (S from + i) with (from + S i) by lia. exact (H (S i) c' ct' Hi Hct).
Qed.

Lemma made_chunks cs r hh (L : list (bytes * bool)) : forall from,
  Forall2 (made_by cs) (map (fun i => (false, er_payload_key (r_random r), nonce_of_chunk i)) (seq from (length L)))
    (map se_ct (map (fun ip => seal cs (er_payload_key (r_random r)) (nonce_of_chunk (fst ip)) (ad_of_chunk hh (snd (snd ip))) (fst (snd ip)))
       (combine (seq from (length L)) L))).
Proof.
  induction L as [|x L IH]; intros from; cbn [length seq map combine]; constructor; [|apply IH].
  eexists. eexists. reflexivity.
Qed.

Lemma flag_last_len (l : list bytes) : length (flag_last l) = length l.
Proof. induction l as [|x [|y l] IH]; [reflexivity..|]. cbn [flag_last length] in *. now rewrite IH. Qed.

Lemma run_composed lib r : lib_ok lib -> completed lib r ->
  exists cs n, lib (chosen (r_opts r)) = Some cs /\ composed cs r n /\
    (lenN (leaves (expression (r_opts r))) < two32)%N /\ (forall i, i < n -> (N.of_nat i < two64)%N).
Proof.
  intros Hlib (Hr & Hw & HE & Hm).
  destruct (layout_sized lib _ _ Hlib Hr Hw _ _ _ HE Hm) as (cs & ser & frame & h & p & c & (Hc & H32) & Hch & Ho & Hf & Hd & _ & He & Hp & Hpd & Hl & Hk).
  set (cts := map se_ct (sealed_data cs (er_payload_key (r_random r)) (cs_hash cs ser) (N.to_nat c) (flat (r_src r)))) in *.
  assert (Hn : length cts = length (chunks (N.to_nat c) (flat (r_src r)))).
  { unfold cts, sealed_data. now rewrite !map_length, combine_length, seq_length, flag_last_len, Nat.min_id. }
  exists cs, (length cts). split; [exact Hch|]. split.
  - exists ser, frame, h, cts. split; [exact Ho|]. split; [exact Hf|]. split; [reflexivity|]. split; [exact Hd|]. split; [exact He|]. split; [exact Hl|].
    unfold uses. constructor; [rewrite Hp; eexists; eexists; reflexivity|]. apply Forall2_app.
    + apply made_recipients; [exact Hl|]. intros i cr ct Hi Hct. rewrite He in Hk. exact (Hk i cr ct Hi Hct).
    + rewrite Hn. unfold cts, sealed_data. rewrite <- (flag_last_len (chunks (N.to_nat c) (flat (r_src r)))). apply made_chunks.
  - split; [exact H32|]. intros i Hi. rewrite Hn in Hi. assert (Hc1 : 1 <= N.to_nat c) by lia. eapply (count64 (N.to_nat c)); eassumption.
Qed.

Lemma recipients_in cs r l : forall from u, In u (uses_for_recipients cs r from l) ->
  exists i c k, nth_error l i = Some c /\ recipient_key cs r c = Some k /\
    u = (by_public_key c, k, if by_public_key c then box_nonce_of_recipient (from + i) else nonce_of_recipient (from + i)).
Proof.
  unfold uses_for_recipients. induction l as [|c l IH]; intros from u Hu; [contradiction|].
  cbn [length seq combine flat_map fst snd] in Hu. apply in_app_iff in Hu. destruct Hu as [Hu|Hu].
  - destruct (recipient_key cs r c) as [k|] eqn:E; [|contradiction]. destruct Hu as [<-|[]].
    exists 0, c, k. rewrite Nat.add_0_r. auto.
  - destruct (IH (S from) u Hu) as (i & c' & k & H1 & H2 & H3). exists (S i), c', k.
    replace (from + S i) with (S from + i) by lia. auto.
Qed.

Definition pn (u : use) : bool * bytes := (fst (fst u), snd u).

Lemma recipient_nonces_apart b1 b2 i j : (N.of_nat i < two32)%N -> (N.of_nat j < two32)%N ->
  (b1, if b1 : bool then box_nonce_of_recipient i else nonce_of_recipient i) = (b2, if b2 : bool then box_nonce_of_recipient j else nonce_of_recipient j) ->
  b1 = b2 /\ i = j.
Proof.
  intros Hi Hj H. injection H as -> H. split; [reflexivity|]. destruct b2; [now apply box_nonce_inj|now apply secret_nonce_inj].
Qed.

Lemma recipients_nodup cs r l : forall from, (N.of_nat (from + length l) < two32)%N ->
  NoDup (map pn (uses_for_recipients cs r from l)).
Proof.
  induction l as [|c l IH]; intros from H; [constructor|].
  assert (E : uses_for_recipients cs r from (c :: l) =
    match recipient_key cs r c with Some k => [(by_public_key c, k, if by_public_key c then box_nonce_of_recipient from else nonce_of_recipient from)] | None => [] end
    ++ uses_for_recipients cs r (S from) l) by reflexivity.
  rewrite E, map_app. cbn [length] in H. destruct (recipient_key cs r c) as [k|]; [|apply IH; rewrite Nat.add_succ_l, <- Nat.add_succ_r; exact H].
  cbn [map app]. constructor; [|apply IH; rewrite Nat.add_succ_l, <- Nat.add_succ_r; exact H].
  rewrite in_map_iff. intros (u & Hu & Hin). apply recipients_in in Hin. destruct Hin as (i & c' & k' & Hi & _ & ->).
  unfold pn in Hu. cbn [fst snd] in Hu. apply nth_error_Some_lt in Hi || (assert (i < length l) by (apply nth_error_Some; congruence)).
  apply recipient_nonces_apart in Hu; lia.
Qed.

Lemma uses_nodup cs r n : (lenN (leaves (expression (r_opts r))) < two32)%N -> (forall i, i < n -> (N.of_nat i < two64)%N) ->
  NoDup (map pn (uses cs r n)).
Proof.
  intros H32 Hn. unfold uses. cbn [map]. rewrite map_app, map_map. constructor.
  - rewrite in_app_iff, !in_map_iff. intros [(u & H & Hu)|(i & H & _)].
    + apply recipients_in in Hu. destruct Hu as (i & c & k & _ & _ & ->). unfold pn in H. cbn [fst snd] in H. destruct (by_public_key c); discriminate.
    + apply (f_equal snd) in H. unfold pn in H. cbn [fst snd] in H. symmetry in H. now apply header_nonce_apart in H.
  - apply NoDup_app'.
    + apply recipients_nodup. exact H32.
    + apply NoDup_map_on; [apply seq_NoDup|]. intros i j Hi Hj H. apply in_seq in Hi, Hj. apply (f_equal snd) in H. unfold pn in H. cbn [fst snd] in H.
      apply chunk_nonce_inj; [apply Hn; lia..|exact H].
    + intros x. rewrite !in_map_iff. intros (u & <- & Hu) (j & H & _). apply recipients_in in Hu. destruct Hu as (i & c & k & _ & _ & ->).
      unfold pn in H. cbn [fst snd] in H. destruct (by_public_key c); discriminate.
Qed.

Lemma same_place cs r n a b u : NoDup (map pn (uses cs r n)) -> nth_error (uses cs r n) a = Some u -> nth_error (uses cs r n) b = Some u -> a = b.
Proof.
  intros H Ha Hb. assert (a < length (map pn (uses cs r n))) by (rewrite map_length; apply nth_error_Some; congruence).
  rewrite NoDup_nth_error in H. apply H; [assumption|]. now rewrite !nth_error_map, Ha, Hb.
Qed.

Lemma uses_in cs r n u : In u (uses cs r n) ->
  (exists nc, u = (false, er_payload_key (r_random r), nc) /\ (nc = nonce_of_header \/ exists i, i < n /\ nc = nonce_of_chunk i)) \/
  (exists i c k, nth_error (leaves (expression (r_opts r))) i = Some c /\ recipient_key cs r c = Some k /\
    u = (by_public_key c, k, if by_public_key c then box_nonce_of_recipient i else nonce_of_recipient i)).
Proof.
  intros [<-|H]; [left; eauto|]. apply in_app_iff in H. destruct H as [H|H].
  - right. exact (recipients_in _ _ _ 0 u H).
  - apply in_map_iff in H. destruct H as (i & <- & Hi). apply in_seq in Hi. left. eexists. split; [reflexivity|]. right. exists i. split; [lia|reflexivity].
Qed.

Lemma keyed_by_secret cs r c k : recipient_key cs r c = Some k -> by_public_key c = false -> by_secret c = true.
Proof. destruct c; cbn; congruence. Qed.

Lemma keys_clash cs e1 s1 e2 s2 c1 c2 k : length e1 = length e2 -> e1 <> e2 -> s1 <> s2 ->
  by_public_key c1 = by_public_key c2 ->
  key_of_recipient cs e1 s1 c1 = Some k -> key_of_recipient cs e2 s2 c2 = Some k -> clash cs e1 s1 e2 s2 c1 c2.
Proof.
  intros Hl He Hs Hb H1 H2. destruct c1, c2; cbn [key_of_recipient by_public_key clash] in *; cbv zeta in *; try discriminate;
    fold (salt_of cs e1) in H1; fold (salt_of cs e2) in H2.
  - destruct (list_eq_dec byte_eq_dec (salt_of cs e1) (salt_of cs e2)) as [E|E]; [left; exact E|]. right.
    split; [intros E'; apply E; now injection E'|congruence].
  - unfold symmetric_of. congruence.
  - unfold symmetric_of. congruence.
  - split; [|unfold symmetric_of; congruence]. intros E. apply He.
    apply (f_equal (firstn (length e1))) in E. rewrite firstn_app_exact in E. rewrite Hl, firstn_app_exact in E. exact E.
  - split; [exact Hs|]. congruence.
Qed.

Lemma shared_use cs r1 r2 n1 n2 u : crypto_ok cs -> public_of cs r1 <> public_of cs r2 ->
  er_payload_key (r_random r1) <> er_payload_key (r_random r2) ->
  (lenN (leaves (expression (r_opts r1))) < two32)%N -> (lenN (leaves (expression (r_opts r2))) < two32)%N ->
  In u (uses cs r1 n1) -> In u (uses cs r2 n2) -> coincidence cs r1 r2.
Proof.
  intros Hok Hpub Hp L1 L2 H1 H2. apply uses_in in H1, H2.
  destruct H1 as [(nc1 & -> & _)|(i & c & k & Hi & Hk & ->)]; destruct H2 as [(nc2 & E & _)|(j & c2 & k2 & Hj & Hk2 & E)].
  - injection E as E _. contradiction.
  - injection E as E1 E2 _. subst k2. apply (payload1 cs r1 r2 c2); [now apply nth_error_In in Hj|eauto using keyed_by_secret|assumption].
  - injection E as E1 E2 _. subst k. apply (payload2 cs r1 r2 c); [now apply nth_error_In in Hi|eauto using keyed_by_secret|assumption].
  - assert (Hi' : i < length (leaves (expression (r_opts r1)))) by (apply nth_error_Some; congruence).
    assert (Hj' : j < length (leaves (expression (r_opts r2)))) by (apply nth_error_Some; congruence).
    unfold lenN in *. assert (k = k2) as <- by congruence.
    assert (by_public_key c = by_public_key c2 /\ i = j) as [Hb <-].
    { apply recipient_nonces_apart; [lia|lia|]. congruence. }
    apply (recipients cs r1 r2 i c c2 Hi Hj). apply keys_clash with k; try assumption.
    + unfold public_of. now rewrite !(keypair_pk_len _ Hok).
    + intros E'. apply Hpub. unfold public_of, private_of in *. rewrite <- !(keypair_layout _ Hok). now rewrite E'.
Qed.

Lemma sizes_exist lib history : lib_ok lib -> Forall (completed lib) history ->
  exists size, forall j r, nth_error history j = Some r ->
    exists cs, lib (chosen (r_opts r)) = Some cs /\ composed cs r (size j) /\
      (lenN (leaves (expression (r_opts r))) < two32)%N /\ (forall i, i < size j -> (N.of_nat i < two64)%N).
Proof.
  intros Hlib. induction 1 as [|r history Hr _ [size IH]].
  - exists (fun _ => 0). intros [|j] r H; discriminate.
  - destruct (run_composed lib r Hlib Hr) as (cs & n & H1 & H2 & H3 & H4).
    exists (fun j => match j with 0 => n | S j => size j end). intros [|j] r' H.
    + injection H as <-. exists cs. auto.
    + exact (IH j r' H).
Qed.

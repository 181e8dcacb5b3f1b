(** Reading a line from the terminal. *)
From Coq.Strings Require Import Byte String.
From Coq Require Import List NArith ZArith Bool Lia PeanoNat.
From Verif Require Import Base BaseFacts Shamir Errors Io Text TextProofs TextProofs2 Util UtilProofs CliErrors Crypto HeaderCrypto Ui UiSpec.
Import ListNotations.
Local Open Scope N_scope.

Lemma next_byte_carries s b bs s' :
  carries s (b :: bs) s' <-> exists s1, next_byte s = (Some (Ok b), s1) /\ carries s1 bs s'.
Proof.
  split.
  - intros H. remember (b :: bs) as l eqn:El. revert b bs El. induction H; intros b0 bs0 El; try discriminate El.
    + destruct (IHcarries _ _ El) as (s1 & N1 & C1). eauto.
    + injection El as -> ->. cbn. eauto.
    + injection El as -> ->. cbn. eauto.
  - intros (s1 & N1 & C1). revert s1 N1 C1. induction s as [|e s IH]; intros s1 N1 C1; [discriminate N1|].
    destruct e as [d| |]; [|constructor; eapply IH; eauto|discriminate N1].
    destruct d as [|x d]; [discriminate N1|]. cbn in N1. injection N1 as -> <-.
    destruct d as [|y d]; constructor; assumption.
Qed.

Lemma carries_one s b s1 : next_byte s = (Some (Ok b), s1) -> carries s [b] s1.
Proof. intros H. apply next_byte_carries. exists s1. split; [assumption|constructor]. Qed.

Lemma carries_trans s a s1 b s2 : carries s a s1 -> carries s1 b s2 -> carries s (a ++ b) s2.
Proof.
  revert s. induction a as [|x a IH]; intros s H1 H2.
  - inversion H1; subst. assumption.
  - apply next_byte_carries in H1 as (s3 & N3 & C3). cbn [app]. apply next_byte_carries. exists s3. eauto.
Qed.

Lemma carries_split s a b s2 : carries s (a ++ b) s2 -> exists s1, carries s a s1 /\ carries s1 b s2.
Proof.
  revert s. induction a as [|x a IH]; intros s H.
  - exists s. split; [constructor|assumption].
  - cbn [app] in H. apply next_byte_carries in H as (s3 & N3 & C3). destruct (IH _ C3) as (s1 & A & B).
    exists s1. split; [|assumption]. apply next_byte_carries. eauto.
Qed.

Lemma source_size_push d s : source_size (push_back d s) = (length d + source_size s)%nat.
Proof. destruct d; [reflexivity|]. unfold source_size, push_back. cbn [map concat]. rewrite app_length. reflexivity. Qed.

Lemma next_byte_size s b s1 : next_byte s = (Some (Ok b), s1) -> source_size s = S (source_size s1).
Proof.
  induction s as [|e s IH]; [discriminate|]. destruct e as [d| |]; cbn [next_byte]; [|exact IH|discriminate].
  destruct d as [|x d]; [discriminate|]. intros [= -> <-]. rewrite source_size_push.
  change (RData (b :: d) :: s) with (push_back (b :: d) s). rewrite source_size_push. reflexivity.
Qed.

Lemma carries_size s b s1 : carries s b s1 -> source_size s = (length b + source_size s1)%nat.
Proof.
  revert s. induction b as [|x b IH]; intros s H; [inversion H; reflexivity|].
  apply next_byte_carries in H as (s2 & N2 & C2). apply next_byte_size in N2. apply IH in C2. cbn [length]. lia.
Qed.

(** The bytes collected for the next character. *)
Definition pending (cb : bytes) : Prop :=
  forall k, (0 < k <= length cb)%nat -> from_utf8 (firstn k cb) = Incomplete.

Lemma pending_nil : pending [].
Proof. intros k L. cbn in L. lia. Qed.

Lemma pending_snoc cb b : pending cb -> from_utf8 (cb ++ [b]) = Incomplete -> pending (cb ++ [b]).
Proof.
  intros P H k L. rewrite app_length in L. cbn [length] in L. destruct (Nat.eq_dec k (S (length cb))) as [->|D].
  - rewrite firstn_all2 by (rewrite app_length; cbn; lia). assumption.
  - rewrite firstn_app. replace (k - length cb)%nat with O by lia. cbn [firstn]. rewrite app_nil_r. apply P. lia.
Qed.

Lemma pending_valid cb b v : pending cb -> from_utf8 (cb ++ [b]) = Valid v ->
  exists c, v = [c] /\ scalar c /\ encode_char c = cb ++ [b].
Proof.
  intros P H. destruct (decode_sound _ _ H) as [S U]. destruct v as [|c v].
  - destruct cb; discriminate U.
  - inversion S as [|? ? Sc Sv]; subst. unfold utf8 in U. cbn [map concat] in U. fold (utf8 v) in U.
    destruct v as [|d v].
    + cbn in U. rewrite app_nil_r in U. eauto.
    + exfalso.
      pose proof (utf8_length_ge (d :: v)) as L2. cbn [length] in L2.
      pose proof (encode_char_length c) as L1.
      assert (length (encode_char c ++ utf8 (d :: v)) = length (cb ++ [b])) as E by (rewrite U; reflexivity).
      rewrite !app_length in E. cbn [length] in E.
      assert (from_utf8 (firstn (length (encode_char c)) cb) = Incomplete) as K by (apply P; lia).
      assert (firstn (length (encode_char c)) cb = encode_char c) as F.
      { transitivity (firstn (length (encode_char c)) (cb ++ [b])).
        - rewrite firstn_app. replace (length (encode_char c) - length cb)%nat with O by lia. cbn [firstn]. now rewrite app_nil_r.
        - rewrite <- U, firstn_app, Nat.sub_diag, firstn_all. cbn [firstn]. apply app_nil_r. }
      rewrite F in K. pose proof (from_utf8_utf8 [c] (Forall_cons _ Sc (Forall_nil _))) as V.
      unfold utf8 in V. cbn [map concat] in V. rewrite app_nil_r in V. rewrite V in K. discriminate K.
Qed.

Lemma read_chars_sound fuel : forall s cb res r s', pending cb ->
  read_chars fuel s cb res = (Ok r, s') ->
  exists rest t, carries s rest s' /\ cb ++ rest = utf8 t ++ [x0a] /\ Forall scalar t /\ ~ In 10 t /\ r = drop_cr (res ++ t).
Proof.
  induction fuel as [|fuel IH]; intros s cb res r s' P H; [discriminate H|]. cbn [read_chars] in H.
  destruct (next_byte s) as [[[b|e|]|] s1] eqn:N1; try discriminate H.
  cbv zeta in H. destruct (from_utf8 (cb ++ [b])) as [v| |] eqn:V; [| |discriminate H].
  - destruct (pending_valid _ _ _ P V) as (c & -> & Sc & Ec).
    destruct (text_eqb [c] [10]) eqn:E.
    + apply text_eqb_eq in E. injection E as ->. injection H as <- <-.
      exists [b], []. split; [apply carries_one, N1|]. split; [symmetry; exact Ec|]. repeat split; [constructor|intros []|now rewrite app_nil_r].
    + destruct (IH _ _ _ _ _ pending_nil H) as (rest & t & C & Et & St & Nt & ->).
      exists (b :: rest), (c :: t). split; [apply next_byte_carries; eauto|].
      split; [|split; [constructor; assumption|split]].
      * unfold utf8. cbn [map concat]. fold (utf8 t). rewrite <- app_assoc, <- Et, Ec. cbn [app]. rewrite <- app_assoc. reflexivity.
      * intros [->|I]; [|exact (Nt I)]. discriminate E.
      * rewrite <- app_assoc. reflexivity.
  - destruct (IH _ _ _ _ _ (pending_snoc _ _ P V) H) as (rest & t & C & Et & St & Nt & ->).
    exists (b :: rest), t. split; [apply next_byte_carries; eauto|]. rewrite <- app_assoc in Et. auto.
Qed.

Lemma split_byte k : forall (l : bytes) b rest, skipn k l = b :: rest ->
  firstn k l ++ [b] = firstn (S k) l /\ skipn (S k) l = rest /\ length rest = (length l - S k)%nat.
Proof.
  induction k as [|k IH]; intros [|x l] b rest E; try discriminate E.
  - cbn [skipn] in E. injection E as -> ->. cbn [firstn skipn app length]. repeat split. lia.
  - cbn [skipn] in E. destruct (IH _ _ _ E) as (A & B & C). repeat split; [|exact B|cbn [length]; lia].
    change (x :: (firstn k l ++ [b]) = x :: firstn (S k) l). now rewrite A.
Qed.

Lemma read_chars_char c s1 n : scalar c -> forall k s fuel res, (length (encode_char c) - k = S n)%nat ->
  carries s (skipn k (encode_char c)) s1 -> (source_size s < fuel)%nat ->
  exists fuel', (source_size s1 < fuel')%nat /\
    read_chars fuel s (firstn k (encode_char c)) res =
    if c =? 10 then (Ok (drop_cr res), s1) else read_chars fuel' s1 [] (res ++ [c]).
Proof.
  intros Sc. induction n as [|n IH]; intros k s fuel res L C F; (destruct fuel as [|fuel]; [lia|]).
  all: destruct (skipn k (encode_char c)) as [|b rest] eqn:Sk;
    [apply (f_equal (@length byte)) in Sk; rewrite skipn_length in Sk; cbn in Sk; lia|].
  all: apply next_byte_carries in C as (s2 & N2 & C2).
  all: destruct (split_byte _ _ _ _ Sk) as (Fk & Sk2 & Lr).
  all: pose proof (next_byte_size _ _ _ N2) as Z2.
  all: cbn [read_chars]; rewrite N2; cbv zeta; rewrite Fk.
  - assert (rest = []) as Er by (destruct rest; [reflexivity|cbn in Lr; lia]). rewrite Er in C2. inversion C2; subst.
    exists fuel. split; [lia|]. rewrite firstn_all2 by lia.
    pose proof (from_utf8_utf8 [c] (Forall_cons _ Sc (Forall_nil _))) as V.
    unfold utf8 in V. cbn [map concat] in V. rewrite app_nil_r in V. rewrite V.
    destruct (N.eqb_spec c 10) as [->|D]; [reflexivity|].
    destruct (text_eqb [c] [10]) eqn:E; [apply text_eqb_eq in E; injection E as ->; contradiction|]. reflexivity.
  - rewrite incomplete_prefix by (try assumption; lia). apply IH; [lia|rewrite Sk2; assumption|lia].
Qed.

Lemma read_chars_complete t : forall s s' fuel res, Forall scalar t -> ~ In 10 t -> carries s (utf8 t ++ [x0a]) s' ->
  (source_size s < fuel)%nat -> read_chars fuel s [] res = (Ok (drop_cr (res ++ t)), s').
Proof.
  induction t as [|c t IH]; intros s s' fuel res St Nt C F.
  - rewrite app_nil_r. destruct (read_chars_char 10 s' 0 ltac:(left; lia) 0 s fuel res eq_refl C F) as (f & _ & E). exact E.
  - inversion St as [|? ? Sc St']; subst. unfold utf8 in C. cbn [map concat] in C. fold (utf8 t) in C.
    rewrite <- app_assoc in C. apply carries_split in C as (s1 & C1 & C2).
    pose proof (encode_char_length c) as L.
    destruct (read_chars_char c s1 (length (encode_char c) - 1) Sc 0 s fuel res ltac:(lia) C1 F) as (f & Lf & E).
    cbn [firstn] in E. rewrite E. destruct (N.eqb_spec c 10) as [->|D]; [exfalso; apply Nt; left; reflexivity|].
    rewrite (IH s1 s' f (res ++ [c]) St' (fun I => Nt (or_intror I)) C2 Lf). rewrite <- app_assoc. reflexivity.
Qed.

Lemma next_byte_no_panic s : fst (next_byte s) <> Some Panic.
Proof. induction s as [|[[|b d]| |] s IH]; cbn; try discriminate. exact IH. Qed.

(** The fuel given to the loop is enough. *)
Lemma read_chars_fuel fuel : forall s cb res, (source_size s < fuel)%nat -> fst (read_chars fuel s cb res) <> Panic.
Proof.
  induction fuel as [|fuel IH]; intros s cb res F; [lia|]. cbn [read_chars].
  pose proof (next_byte_no_panic s) as NP. destruct (next_byte s) as [[[b|e|]|] s1] eqn:N1; cbn in *; try discriminate; try contradiction.
  apply next_byte_size in N1. destruct (from_utf8 (cb ++ [b])) as [v| |]; [destruct (text_eqb v [10])| |]; cbn; try discriminate; apply IH; lia.
Qed.

Lemma drop_cr_spec t : without_cr t (drop_cr t).
Proof.
  unfold drop_cr. destruct (rev t) as [|c l] eqn:E.
  - right. apply (f_equal (@rev N)) in E. rewrite rev_involutive in E. subst. split; [reflexivity|]. intros [|]; discriminate.
  - apply (f_equal (@rev N)) in E. rewrite rev_involutive in E. cbn [rev] in E. subst t.
    destruct (N.eqb_spec c 13) as [->|D]; [left; reflexivity|right]. split; [reflexivity|].
    intros r' H. apply app_inj_tail in H as [_ H]. contradiction.
Qed.

Lemma without_cr_fun t r r' : without_cr t r -> without_cr t r' -> r = r'.
Proof.
  intros [A|[A HA]] [B|[B HB]].
  - rewrite A in B. apply app_inj_tail in B as [B _]. exact B.
  - exfalso. exact (HB _ A).
  - exfalso. exact (HA _ B).
  - congruence.
Qed.

Lemma read_line_iff s r s' :
  read_chars (S (source_size s)) s [] [] = (Ok r, s') <-> types s r s'.
Proof.
  split.
  - intros H. destruct (read_chars_sound _ _ _ _ _ _ pending_nil H) as (rest & t & C & E & St & Nt & ->).
    cbn [app] in E. subst rest. exists t. repeat split; try assumption. apply drop_cr_spec.
  - intros (t & St & Nt & C & W). rewrite (read_chars_complete t s s') by (try assumption; lia).
    cbn [app]. rewrite (without_cr_fun _ _ _ W (drop_cr_spec t)). reflexivity.
Qed.

Lemma types_size s r s' : types s r s' -> (source_size s' < source_size s)%nat.
Proof. intros (t & _ & _ & C & _). apply carries_size in C. rewrite app_length in C. cbn in C. lia. Qed.

Lemma types_fun s r s' r2 s2 : types s r s' -> types s r2 s2 -> r = r2 /\ s' = s2.
Proof. rewrite <- !read_line_iff. intros -> [= <- <-]. auto. Qed.

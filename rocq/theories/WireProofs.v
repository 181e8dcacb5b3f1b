(** The decoder of [Proto] accepts exactly the messages of [WireSpec], with exactly the meaning given there. *)
From Coq Require Import List NArith Bool Lia Arith.
From Coq.Strings Require Import Byte.
From Verif Require Import Base BaseFacts Proto ProtoSpec ProtoProofs WireSpec.
Import ListNotations.
Local Open Scope N_scope.

(** ** Bytes *)

Lemma two64_pow : 2 ^ 64 = two64. Proof. reflexivity. Qed.

Lemma dec_varint_go_iff fuel : forall shift acc b v rest,
  dec_varint_go fuel shift acc b = Some (v, rest) <->
  exists n vb, base128 n vb /\ (length vb <= fuel)%nat /\ b = vb ++ rest /\ v = (acc + n * shift) mod two64.
Proof.
  induction fuel as [|fuel IH]; intros shift acc b v rest; simpl.
  - split; [discriminate|]. intros (n & vb & H & Hl & _). destruct H; simpl in Hl; lia.
  - destruct b as [|x b].
    + split; [discriminate|]. intros (n & vb & H & Hl & He & _). destruct H; discriminate.
    + pose proof (b2n_bound x) as Hx. destruct (b2n x <? 128) eqn:E.
      * apply N.ltb_lt in E. rewrite N.mod_small by exact E. split.
        -- intros H. injection H as <- <-. exists (b2n x), [x].
           split; [now constructor|]. split; [simpl; lia|]. split; reflexivity.
        -- intros (n & vb & H & Hl & He & Hv). destruct H as [y Hy|y n bs Hy H].
           ++ injection He as <- <-. rewrite Hv. reflexivity.
           ++ injection He as <- He. lia.
      * apply N.ltb_ge in E.
        assert (Hm : b2n x mod 128 = b2n x - 128).
        { symmetry. apply N.mod_unique with 1; lia. }
        rewrite Hm, IH. split.
        -- intros (n & vb & H & Hl & He & Hv). exists (b2n x - 128 + 128 * n), (x :: vb).
           split; [now constructor|]. split; [simpl; lia|]. split; [now subst b|].
           rewrite Hv. f_equal. lia.
        -- intros (n & vb & H & Hl & He & Hv). destruct H as [y Hy|y n bs Hy H].
           ++ injection He as <- He. lia.
           ++ injection He as <- He. exists n, bs. simpl in Hl.
              split; [exact H|]. split; [lia|]. split; [exact He|]. rewrite Hv. f_equal. lia.
Qed.

Lemma dec_varint_iff b v rest :
  dec_varint b = Some (v, rest) <-> exists vb, is_varint v vb /\ b = vb ++ rest.
Proof.
  unfold dec_varint, is_varint. rewrite dec_varint_go_iff. split.
  - intros (n & vb & H & Hl & He & Hv). exists vb. split; [|exact He]. exists n.
    rewrite N.mul_1_r in Hv. now split; [|split].
  - intros (vb & (n & H & Hl & Hv) & He). exists n, vb. rewrite N.mul_1_r. now split; [|split; [|split]].
Qed.

Lemma take_iff n b x rest : take n b = Some (x, rest) <-> b = x ++ rest /\ lenN x = n.
Proof.
  unfold take, lenN. destruct (N.of_nat (length b) <? n) eqn:E.
  - apply N.ltb_lt in E. split; [discriminate|]. intros [-> <-]. rewrite app_length in E. lia.
  - apply N.ltb_ge in E. split.
    + intros H. injection H as <- <-. split; [symmetry; apply firstn_skipn|].
      rewrite firstn_length. lia.
    + intros [-> <-]. rewrite Nnat.Nat2N.id.
      rewrite firstn_app, skipn_app, firstn_all, skipn_all, Nat.sub_diag. simpl.
      now rewrite app_nil_r.
Qed.

Lemma key_bound tag w : w < 8 -> tag * 8 + w < two32 <-> tag < 2 ^ 29.
Proof. change (2 ^ 29) with 536870912. unfold two32. lia. Qed.

Lemma dec_field_iff b tag w rest :
  dec_field b = Some (tag, w, rest) <-> exists fb, is_field (tag, w) fb /\ b = fb ++ rest.
Proof.
  unfold dec_field. split.
  - destruct (dec_varint b) as [[key b1]|] eqn:E1; [|discriminate].
    apply dec_varint_iff in E1. destruct E1 as (kb & Hk & ->).
    destruct (two32 <=? key) eqn:E2; [discriminate|]. apply N.leb_gt in E2.
    destruct (key / 8 <? 1) eqn:E3; [discriminate|]. apply N.ltb_ge in E3.
    pose proof (N.div_mod key 8 ltac:(discriminate)) as HD.
    assert (HB : 1 <= key / 8 < 2 ^ 29).
    { split; [exact E3|]. change (2 ^ 29) with 536870912. unfold two32 in E2.
      apply N.div_lt_upper_bound; lia. }
    rewrite N.mul_comm in HD.
    destruct (key mod 8) as [|[[|p|]|[|p|]|]] eqn:E4; intros H; try discriminate H;
      try (destruct p; discriminate H).
    + destruct (dec_varint b1) as [[v b2]|] eqn:E5; [|discriminate]. injection H as <- <- <-.
      apply dec_varint_iff in E5. destruct E5 as (vb & Hv & ->). rewrite HD in Hk.
      exists (kb ++ vb). split; [now constructor|]. now rewrite app_assoc.
    + destruct p as [p|p|]; try discriminate H.
      destruct (take 4 b1) as [[v b2]|] eqn:E5; [|discriminate]. injection H as <- <- <-.
      apply take_iff in E5. destruct E5 as (-> & Hv). rewrite HD in Hk.
      exists (kb ++ v). split; [constructor; auto; unfold lenN in Hv; lia|]. now rewrite app_assoc.
    + destruct (dec_varint b1) as [[len b2]|] eqn:E5; [|discriminate].
      destruct (take len b2) as [[v b3]|] eqn:E6; [|discriminate]. injection H as <- <- <-.
      apply dec_varint_iff in E5. destruct E5 as (lb & Hl & ->).
      apply take_iff in E6. destruct E6 as (-> & Hv). rewrite HD in Hk. subst len.
      exists (kb ++ lb ++ v). split; [now constructor|]. now rewrite <- !app_assoc.
    + destruct (take 8 b1) as [[v b2]|] eqn:E5; [|discriminate]. injection H as <- <- <-.
      apply take_iff in E5. destruct E5 as (-> & Hv). rewrite HD in Hk.
      exists (kb ++ v). split; [constructor; auto; unfold lenN in Hv; lia|]. now rewrite app_assoc.
  - intros (fb & H & ->).
    assert (HK : forall wt kb b1, 1 <= tag < 2 ^ 29 -> wt < 8 -> is_varint (tag * 8 + wt) kb ->
              dec_varint (kb ++ b1) = Some (tag * 8 + wt, b1) /\
              (two32 <=? tag * 8 + wt) = false /\ (tag * 8 + wt) / 8 = tag /\ (tag <? 1) = false /\
              (tag * 8 + wt) mod 8 = wt).
    { intros wt kb b1 Ht Hw Hk. split; [apply dec_varint_iff; now exists kb|].
      pose proof (key_bound tag wt Hw). pose proof (key_split tag wt Hw) as [K1 K2].
      repeat split; auto; [apply N.leb_gt|apply N.ltb_ge]; lia. }
    inversion H as [t v kb vb Ht Hk Hv|t v kb Ht Hk Hv|t v kb lb Ht Hk Hv|t v kb Ht Hk Hv]; subst.
    + rewrite <- app_assoc. destruct (HK 0 kb (vb ++ rest) Ht ltac:(lia) Hk) as (-> & -> & -> & -> & ->).
      assert (dec_varint (vb ++ rest) = Some (v, rest)) as -> by (apply dec_varint_iff; now exists vb).
      reflexivity.
    + rewrite <- app_assoc. destruct (HK 1 kb (v ++ rest) Ht ltac:(lia) Hk) as (-> & -> & -> & -> & ->).
      assert (take 8 (v ++ rest) = Some (v, rest)) as -> by (apply take_iff; unfold lenN; split; [reflexivity|lia]).
      reflexivity.
    + rewrite <- !app_assoc. destruct (HK 2 kb (lb ++ v ++ rest) Ht ltac:(lia) Hk) as (-> & -> & -> & -> & ->).
      assert (dec_varint (lb ++ v ++ rest) = Some (lenN v, v ++ rest)) as ->
        by (apply dec_varint_iff; now exists lb).
      now rewrite take_app.
    + rewrite <- app_assoc. destruct (HK 5 kb (v ++ rest) Ht ltac:(lia) Hk) as (-> & -> & -> & -> & ->).
      assert (take 4 (v ++ rest) = Some (v, rest)) as -> by (apply take_iff; unfold lenN; split; [reflexivity|lia]).
      reflexivity.
Qed.

Lemma is_field_nonempty f b : is_field f b -> (1 <= length b)%nat.
Proof.
  intros H. destruct f as [tag w].
  assert (D : dec_field (b ++ []) = Some (tag, w, [])) by (apply dec_field_iff; now exists b).
  apply dec_field_shorter in D. rewrite app_nil_r in D. simpl in D. lia.
Qed.

Lemma dec_fields_go_iff fuel : forall b fs, (length b <= fuel)%nat ->
  dec_fields_go fuel b = Some fs <-> is_message fs b.
Proof.
  induction fuel as [|fuel IH]; intros b fs Hf.
  - destruct b; [|simpl in Hf; lia]. simpl. split.
    + intros H. injection H as <-. constructor.
    + intros H. inversion H as [|f fs' b bs Hb Hm]; [reflexivity|].
      apply is_field_nonempty in Hb. destruct b; simpl in *; [lia|discriminate].
  - destruct b as [|x b].
    + simpl. split.
      * intros H. injection H as <-. constructor.
      * intros H. inversion H as [|f fs' b bs Hb Hm]; [reflexivity|].
        apply is_field_nonempty in Hb. destruct b; simpl in *; [lia|discriminate].
    + simpl. destruct (dec_field (x :: b)) as [[[tag w] rest]|] eqn:E.
      * pose proof (dec_field_shorter _ _ _ _ E) as Hs. simpl in Hs, Hf.
        split.
        -- destruct (dec_fields_go fuel rest) as [l|] eqn:E2; [|discriminate]. intros H. injection H as <-.
           apply (IH rest) in E2; [|lia]. apply dec_field_iff in E. destruct E as (fb & Hb & ->). now constructor.
        -- intros H. inversion H as [|f fs' fb bs Hb Hm He1 He2]; subst.
           destruct f as [tag' w']. assert (E' : dec_field (fb ++ bs) = Some (tag', w', bs))
             by (apply dec_field_iff; now exists fb).
           rewrite He2, E in E'. injection E' as -> -> ->.
           apply IH in Hm; [|lia]. now rewrite Hm.
      * split; [discriminate|]. intros H. inversion H as [|f fs' fb bs Hb Hm He1 He2]; subst.
        destruct f as [tag' w']. assert (E' : dec_field (fb ++ bs) = Some (tag', w', bs))
          by (apply dec_field_iff; now exists fb).
        rewrite He2, E in E'. discriminate.
Qed.

Lemma dec_fields_iff b fs : dec_fields b = Some fs <-> is_message fs b.
Proof. unfold dec_fields. apply dec_fields_go_iff. lia. Qed.

Lemma dec_message_iff {A} (f : A -> N * wire -> option A) a b r :
  dec_message f a b = Some r <-> exists fs, is_message fs b /\ merge_fields f a fs = Some r.
Proof.
  unfold dec_message. split.
  - destruct (dec_fields b) as [fs|] eqn:E; [|discriminate]. apply dec_fields_iff in E. eauto.
  - intros (fs & H & Hm). apply dec_fields_iff in H. now rewrite H.
Qed.

Lemma bodies_shorter tag fs b x : is_message fs b -> In x (bodies tag fs) -> (length x < length b)%nat.
Proof.
  induction 1 as [|f fs b bs Hb Hm IH]; simpl; [easy|]. rewrite in_app_iff, app_length.
  intros [H|H]; [|specialize (IH H); lia].
  destruct f as [t w]. destruct w as [| |y|]; try easy. destruct (t =? tag); [|easy].
  destruct H as [<-|[]]. inversion Hb; subst. rewrite !app_length.
  assert (1 <= length kb)%nat; [|lia].
  destruct H2 as (n & Hn & _). destruct Hn; simpl; lia.
Qed.

(** ** Meaning *)

Lemma typed_nil tag ty : typed tag ty []. Proof. intros w []. Qed.
Lemma typed_cons tag ty t w fs : typed tag ty ((t, w) :: fs) <-> (t = tag -> ty w) /\ typed tag ty fs.
Proof.
  unfold typed. simpl. split.
  - intros H. split; [intros ->; apply H; now left|]. intros v Hv. apply H. now right.
  - intros [H1 H2] v [E|Hv]; [|now apply H2]. injection E as -> ->. now apply H1.
Qed.
Lemma last_app_one {A} (l k : list A) d : last (l ++ k) d = last k (last l d).
Proof.
  revert d. induction l as [|x l IH]; intros d; [reflexivity|].
  destruct l as [|y l].
  - simpl app. destruct k as [|z k]; [reflexivity|]. change (last (x :: z :: k) d) with (last (z :: k) d).
    clear. simpl last at 3. revert z. induction k as [|u k IH]; intros z; [reflexivity|].
    change (last (z :: u :: k) d) with (last (u :: k) d). rewrite IH. reflexivity.
  - change (last ((x :: y :: l) ++ k) d) with (last ((y :: l) ++ k) d).
    change (last (x :: y :: l) d) with (last (y :: l) d). apply IH.
Qed.
Lemma last_cons {A} (x : A) l d : last (x :: l) d = last l x.
Proof. apply (last_app_one [x] l d). Qed.

Lemma typed_iff_all tag ty fs : typed tag ty fs <-> Forall (fun f => fst f = tag -> ty (snd f)) fs.
Proof.
  induction fs as [|[t w] fs IH].
  - split; [constructor|intros _; apply typed_nil].
  - rewrite typed_cons, IH. split.
    + intros [H1 H2]. now constructor.
    + intros H. inversion H; subst. now split.
Qed.
Lemma typed_app tag ty fs gs : typed tag ty (fs ++ gs) <-> typed tag ty fs /\ typed tag ty gs.
Proof. rewrite !typed_iff_all. apply Forall_app. Qed.

Lemma merge_ckey_other fuel k tag w : tag <> 1 -> tag <> 2 -> merge_ckey (S fuel) k (tag, w) = Some k.
Proof.
  intros H1 H2. destruct k as [t l].
  destruct tag as [|[p|[p|p|]|]]; try reflexivity; congruence.
Qed.

Lemma merge_kparts_other fuel p tag w :
  tag <> 1 -> tag <> 2 -> tag <> 3 -> merge_kparts fuel p (tag, w) = Some p.
Proof.
  intros H1 H2 H3.
  destruct tag as [|[[q|q|]|[q|q|]|]]; try reflexivity; congruence.
Qed.

(** Folding the fields of a [CompositeKey]. *)
Lemma ckey_fold fuel : forall fs t0 l0 k,
  merge_fields (merge_ckey (S fuel)) (t0, l0) fs = Some k <->
  typed 1 a_varint fs /\ typed 2 a_len fs /\
  exists parts, Forall2 (fun b p => dec_message (merge_kparts fuel) (0, KNone) b = Some p) (bodies 2 fs) parts /\
    k = (last (ints 1 fs) t0, l0 ++ parts).
Proof.
  induction fs as [|[tag w] fs IH]; intros t0 l0 k.
  - cbn [merge_fields]. split.
    + intros H. injection H as <-. repeat split; try apply typed_nil. exists []. rewrite app_nil_r.
      now split; [constructor|].
    + intros (_ & _ & parts & H & ->). inversion H; subst. now rewrite app_nil_r.
  - rewrite !typed_cons. cbn [merge_fields].
    destruct (N.eq_dec tag 1) as [->|N1]; [|destruct (N.eq_dec tag 2) as [->|N2]].
    + destruct w as [v| | |]; cbn [merge_ckey a_varint];
        try (split; [discriminate|intros ((H & _) & _); destruct (H eq_refl)]).
      rewrite IH. change (ints 1 ((1, WVarint v) :: fs)) with (v :: ints 1 fs).
      change (bodies 2 ((1, WVarint v) :: fs)) with (bodies 2 fs). rewrite last_cons.
      split.
      * intros (H1 & H2 & H3). repeat split; auto. discriminate.
      * intros ((_ & H1) & (_ & H2) & H3). auto.
    + destruct w as [|?|b|?]; try (cbn [merge_ckey]; split; [discriminate|intros (_ & (H & _) & _); destruct (H eq_refl)]).
      change (bodies 2 ((2, WLen b) :: fs)) with (b :: bodies 2 fs).
      change (ints 1 ((2, WLen b) :: fs)) with (ints 1 fs).
      rewrite merge_ckey_part. destruct (dec_message (merge_kparts fuel) (0, KNone) b) as [p|] eqn:E.
      * rewrite IH. split.
        -- intros (H1 & H2 & parts & H3 & ->). repeat split; auto; try discriminate.
           exists (p :: parts). split; [now constructor|]. now rewrite <- app_assoc.
        -- intros ((_ & H1) & (_ & H2) & parts & H3 & ->). repeat split; auto.
           inversion H3 as [|b' p' bs ps Hb Hps]; subst.
           assert (p' = p) by (cbv beta in Hb; congruence). subst p'.
           exists ps. split; [exact Hps|]. now rewrite <- app_assoc.
      * split; [discriminate|]. intros (_ & _ & parts & H3 & _). inversion H3; subst. cbv beta in *. congruence.
    + rewrite merge_ckey_other by assumption. rewrite IH.
      assert (ints 1 ((tag, w) :: fs) = ints 1 fs) as ->.
      { cbn [ints flat_map]. destruct w; try reflexivity. destruct (N.eqb_spec tag 1); [congruence|reflexivity]. }
      assert (bodies 2 ((tag, w) :: fs) = bodies 2 fs) as ->.
      { cbn [bodies flat_map]. destruct w; try reflexivity. destruct (N.eqb_spec tag 2); [congruence|reflexivity]. }
      split.
      * intros (H1 & H2 & H3). repeat split; auto; congruence.
      * intros ((_ & H1) & (_ & H2) & H3). auto.
Qed.

(** Folding the fields of an [EncryptedKeyParts]; [ok] is the meaning of a nested composite key. *)
Lemma kparts_fold fuel : forall fs n0 d0 p,
  (forall b t l, In b (bodies 3 fs) ->
     dec_message (merge_ckey fuel) (0, []) b = Some (t, l) <->
     exists gs, is_message gs b /\ ckey_means gs (t, l)) ->
  merge_fields (merge_kparts fuel) (n0, d0) fs = Some p <->
  typed 1 a_varint fs /\ kdata_means fs d0 (snd p) /\ fst p = last (ints 1 fs) n0.
Proof.
  induction fs as [|[tag w] fs IH]; intros n0 d0 p HC.
  - cbn [merge_fields]. split.
    + intros H. injection H as <-. repeat split; [apply typed_nil|constructor].
    + intros (_ & H & Hn). inversion H; subst. destruct p as [n d]. simpl in *. now subst.
  - rewrite typed_cons. cbn [merge_fields].
    assert (HC' : forall b t l, In b (bodies 3 fs) ->
              dec_message (merge_ckey fuel) (0, []) b = Some (t, l) <->
              exists gs, is_message gs b /\ ckey_means gs (t, l)).
    { intros b t l Hb. apply HC. cbn [bodies flat_map]. apply in_app_iff. now right. }
    destruct (N.eq_dec tag 1) as [->|N1]; [|destruct (N.eq_dec tag 2) as [->|N2];
      [|destruct (N.eq_dec tag 3) as [->|N3]]].
    + destruct w as [v| | |]; cbn [merge_kparts a_varint];
        try (split; [discriminate|intros ((H & _) & _); destruct (H eq_refl)]).
      cbn [fst snd]. rewrite IH by exact HC'.
      change (ints 1 ((1, WVarint v) :: fs)) with (v :: ints 1 fs). rewrite last_cons.
      split.
      * intros (H1 & H2 & H3). repeat split; auto. now constructor.
      * intros ((_ & H1) & H2 & H3). repeat split; auto. inversion H2; subst; auto; congruence.
    + assert (ints 1 ((2, w) :: fs) = ints 1 fs) as -> by (destruct w; reflexivity).
      destruct w as [|?|b|?]; cbn [merge_kparts fst snd];
        try (split; [discriminate|intros (_ & H & _); inversion H; congruence]).
      rewrite IH by exact HC'. split.
      * intros (H1 & H2 & H3). repeat split; auto; try discriminate; now constructor.
      * intros ((_ & H1) & H2 & H3). repeat split; auto. inversion H2; subst; auto; congruence.
    + assert (ints 1 ((3, w) :: fs) = ints 1 fs) as -> by (destruct w; reflexivity).
      destruct w as [|?|b|?]; cbn [merge_kparts fst snd];
        try (split; [discriminate|intros (_ & H & _); inversion H; congruence]).
      specialize (HC b). assert (Hin : In b (bodies 3 ((3, WLen b) :: fs))) by now left.
      destruct (dec_message (merge_ckey fuel) (0, []) b) as [[t l]|] eqn:E.
      * rewrite IH by exact HC'. split.
        -- intros (H1 & H2 & H3). repeat split; auto; try discriminate.
           destruct (proj1 (HC t l Hin) eq_refl) as (gs & Hg & Hm).
           now apply KC_comp with gs t l.
        -- intros ((_ & H1) & H2 & H3). repeat split; auto.
           inversion H2 as [| |b' gs t' l' fs' d d' Hg Hm Hr|]; subst; [|congruence].
           assert (Hx : Some (t, l) = Some (t', l')) by (apply (HC t' l' Hin); now exists gs).
           injection Hx as <- <-. exact Hr.
      * split; [discriminate|]. intros (_ & H2 & _).
        inversion H2 as [| |b' gs t' l' fs' d d' Hg Hm Hr|]; subst; [|congruence].
        assert (Hx : None = Some (t', l')) by (apply (HC t' l' Hin); now exists gs). discriminate.
    + rewrite merge_kparts_other by assumption. rewrite IH by exact HC'.
      assert (ints 1 ((tag, w) :: fs) = ints 1 fs) as ->.
      { cbn [ints flat_map]. destruct w; try reflexivity. destruct (N.eqb_spec tag 1); [congruence|reflexivity]. }
      split.
      * intros (H1 & H2 & H3). repeat split; auto; [congruence|now constructor].
      * intros ((_ & H1) & H2 & H3). repeat split; auto. inversion H2; subst; auto; congruence.
Qed.

Lemma parts_mean_iff bs ps :
  parts_mean bs ps <-> Forall2 (fun b p => exists gs, is_message gs b /\ kparts_mean gs p) bs ps.
Proof.
  split.
  - revert ps. induction bs as [|b bs IH]; intros ps H; inversion H; subst; constructor; eauto.
  - induction 1 as [|b p bs ps (gs & H1 & H2) _ IH]; econstructor; eauto.
Qed.

Lemma Forall2_iff_in {A B} (P Q : A -> B -> Prop) l k :
  (forall a b, In a l -> P a b <-> Q a b) -> Forall2 P l k <-> Forall2 Q l k.
Proof.
  intros H. split; intros F.
  - induction F; constructor; [apply H; [now left|assumption]|]. apply IHF. intros. apply H. now right.
  - induction F; constructor; [apply H; [now left|assumption]|]. apply IHF. intros. apply H. now right.
Qed.

Lemma ckey_fields_mean fuel gs t l :
  (forall y t l, (length y < fuel)%nat ->
     dec_message (merge_ckey fuel) (0, []) y = Some (t, l) <-> exists gs, is_message gs y /\ ckey_means gs (t, l)) ->
  (forall x, In x (bodies 2 gs) -> (length x <= fuel)%nat) ->
  merge_fields (merge_ckey (S fuel)) (0, []) gs = Some (t, l) <-> ckey_means gs (t, l).
Proof.
  intros IH HL. rewrite ckey_fold.
  assert (HB : forall parts, Forall2 (fun b p => dec_message (merge_kparts fuel) (0, KNone) b = Some p)
                 (bodies 2 gs) parts <-> parts_mean (bodies 2 gs) parts).
  { intros parts. rewrite parts_mean_iff. apply Forall2_iff_in. intros x [n d] Hx.
    specialize (HL x Hx). rewrite dec_message_iff.
    assert (HK : forall hs, is_message hs x ->
              merge_fields (merge_kparts fuel) (0, KNone) hs = Some (n, d) <-> kparts_mean hs (n, d)).
    { intros hs Hh. rewrite kparts_fold.
      - cbn [fst snd]. split.
        + intros (H1 & H2 & ->). now constructor.
        + intros H. inversion H; subst. auto.
      - intros y t' l' Hy. apply IH. pose proof (bodies_shorter _ _ _ _ Hh Hy). lia. }
    split; intros (hs & Hh & H); exists hs; (split; [exact Hh|]); now apply HK. }
  split.
  - intros (H1 & H2 & parts & H3 & He). cbn [app] in He. injection He as -> ->.
    constructor; auto. now apply HB.
  - intros H. inversion H as [fs parts H1 H2 H3]; subst. repeat split; auto. exists l.
    split; [now apply HB|reflexivity].
Qed.

Lemma ckey_decodes fuel : forall b t l, (length b < fuel)%nat ->
  dec_message (merge_ckey fuel) (0, []) b = Some (t, l) <->
  exists gs, is_message gs b /\ ckey_means gs (t, l).
Proof.
  induction fuel as [|fuel IH]; intros b t l Hf; [lia|].
  rewrite dec_message_iff.
  split; intros (gs & Hg & H); exists gs; (split; [exact Hg|]);
    apply (ckey_fields_mean fuel gs t l IH);
    try (intros x Hx; pose proof (bodies_shorter _ _ _ _ Hg Hx); lia); exact H.
Qed.

(** ** The file header *)

Lemma libsodium_fold : forall fs a0 a,
  merge_fields merge_libsodium a0 fs = Some a <->
  typed 1 a_varint fs /\ a = last (map wrap32 (ints 1 fs)) a0.
Proof.
  induction fs as [|[tag w] fs IH]; intros a0 a.
  - cbn [merge_fields]. split.
    + intros H. injection H as <-. split; [apply typed_nil|reflexivity].
    + intros (_ & ->). reflexivity.
  - rewrite typed_cons. cbn [merge_fields].
    destruct (N.eq_dec tag 1) as [->|N1].
    + destruct w as [v| | |]; cbn [merge_libsodium a_varint];
        try (split; [discriminate|intros ((H & _) & _); destruct (H eq_refl)]).
      rewrite IH. change (ints 1 ((1, WVarint v) :: fs)) with (v :: ints 1 fs). cbn [map]. rewrite last_cons.
      tauto.
    + assert (merge_libsodium a0 (tag, w) = Some a0) as ->
        by (destruct tag as [|[p|p|]]; try reflexivity; congruence).
      rewrite IH.
      assert (ints 1 ((tag, w) :: fs) = ints 1 fs) as ->.
      { cbn [ints flat_map]. destruct w; try reflexivity. destruct (N.eqb_spec tag 1); [congruence|reflexivity]. }
      tauto.
Qed.

Lemma last_map {A B} (f : A -> B) l d : last (map f l) (f d) = f (last l d).
Proof. revert d. induction l as [|x l IH]; intros d; [reflexivity|]. cbn [map]. now rewrite !last_cons. Qed.

Lemma family_iff b a : dec_message merge_libsodium 0 b = Some a <-> family_means b a.
Proof.
  rewrite dec_message_iff. unfold family_means.
  split; intros (gs & Hg & H); exists gs; (split; [exact Hg|]).
  - apply libsodium_fold in H. destruct H as [H ->]. split; [exact H|].
    exact (last_map wrap32 (ints 1 gs) 0).
  - destruct H as [H ->]. apply libsodium_fold. split; [exact H|].
    symmetry. exact (last_map wrap32 (ints 1 gs) 0).
Qed.

Lemma merge_fields_split {A} (f : A -> N * wire -> option A) l k : forall a,
  merge_fields f a (l ++ k) = match merge_fields f a l with None => None | Some b => merge_fields f b k end.
Proof.
  induction l as [|x l IH]; intros a; [reflexivity|]. cbn [app merge_fields].
  destruct (f a x); [apply IH|reflexivity].
Qed.

Definition start_ckey (k : option ckey) : ckey := match k with Some k => k | None => (0, []) end.

Lemma merge_header_other fuel h tag w :
  tag <> 1 -> tag <> 6 -> tag <> 7 -> tag <> 8 -> merge_header fuel h (tag, w) = Some h.
Proof.
  intros H1 H6 H7 H8.
  destruct tag as [|p]; [reflexivity|].
  do 4 (destruct p as [p|p|]; try reflexivity; try congruence).
Qed.

Lemma bodies_other tag t w fs : t <> tag -> bodies tag ((t, w) :: fs) = bodies tag fs.
Proof.
  intros H. cbn [bodies flat_map]. destruct w; try reflexivity.
  destruct (N.eqb_spec t tag); [congruence|reflexivity].
Qed.

Lemma header_fold fuel : forall fs h0 h,
  merge_fields (merge_header fuel) h0 fs = Some h <->
  typed 1 a_len fs /\ typed 6 a_len fs /\ typed 7 a_len fs /\ typed 8 a_len fs /\
  (exists algs, Forall2 family_means (bodies 1 fs) algs /\ hd_family h = last (map Some algs) (hd_family h0)) /\
  hd_ephemeral_pk h = last (bodies 6 fs) (hd_ephemeral_pk h0) /\
  (exists gss, Forall2 is_message gss (bodies 7 fs) /\
     match gss with
     | [] => hd_payload_key h = hd_payload_key h0
     | _ => exists k, merge_fields (merge_ckey fuel) (start_ckey (hd_payload_key h0)) (concat gss) = Some k /\
              hd_payload_key h = Some k
     end) /\
  hd_protected h = last (bodies 8 fs) (hd_protected h0).
Proof.
  induction fs as [|[tag w] fs IH]; intros h0 h.
  - cbn [merge_fields bodies flat_map]. split.
    + intros H. injection H as <-. repeat split; try apply typed_nil; exists []; now split; [constructor|].
    + intros (_ & _ & _ & _ & (algs & Ha & H1) & H2 & (gss & Hg & H3) & H4).
      inversion Ha; subst. inversion Hg; subst. cbn [map last] in *.
      destruct h, h0; cbn in *; congruence.
  - rewrite !typed_cons. cbn [merge_fields].
    destruct (N.eq_dec tag 1) as [->|N1]; [|destruct (N.eq_dec tag 6) as [->|N6];
      [|destruct (N.eq_dec tag 7) as [->|N7]; [|destruct (N.eq_dec tag 8) as [->|N8]]]].
    + rewrite (bodies_other 6), (bodies_other 7), (bodies_other 8) by discriminate.
      destruct w as [|?|b|?]; cbn [merge_header];
        try (split; [discriminate|intros ((H & _) & _); destruct (H eq_refl)]).
      change (bodies 1 ((1, WLen b) :: fs)) with (b :: bodies 1 fs).
      destruct (dec_message merge_libsodium 0 b) as [a|] eqn:E.
      * rewrite IH. cbn [hd_family hd_ephemeral_pk hd_payload_key hd_protected]. apply family_iff in E. split.
        -- intros (T1 & T6 & T7 & T8 & (algs & Ha & H1) & H2 & H3 & H4).
           split; [split; [easy|exact T1]|]. split; [split; [discriminate|exact T6]|].
           split; [split; [discriminate|exact T7]|]. split; [split; [discriminate|exact T8]|].
           split; [exists (a :: algs); split; [now constructor|now cbn [map]; rewrite last_cons]|auto].
        -- intros ((_ & T1) & (_ & T6) & (_ & T7) & (_ & T8) & (algs & Ha & H1) & H2 & H3 & H4).
           inversion Ha as [|b' a' bs as' Hb Has]; subst.
           apply family_iff in E. apply family_iff in Hb. assert (a' = a) by congruence. subst a'.
           cbn [map] in H1. rewrite last_cons in H1.
           repeat (split; [eassumption || (exists as'; now split)|]). exact H4.
      * split; [discriminate|]. intros (_ & _ & _ & _ & (algs & Ha & _) & _). inversion Ha as [|b' a' bs as' Hb Has]; subst.
        apply family_iff in Hb. congruence.
    + rewrite (bodies_other 1), (bodies_other 7), (bodies_other 8) by discriminate.
      destruct w as [|?|b|?]; cbn [merge_header];
        try (split; [discriminate|intros (_ & (H & _) & _); destruct (H eq_refl)]).
      change (bodies 6 ((6, WLen b) :: fs)) with (b :: bodies 6 fs). rewrite last_cons, IH.
      cbn [hd_family hd_ephemeral_pk hd_payload_key hd_protected].
      assert (6 = 1 -> a_len (WLen b)) by discriminate. assert (6 = 6 -> a_len (WLen b)) by easy.
      assert (6 = 7 -> a_len (WLen b)) by discriminate. assert (6 = 8 -> a_len (WLen b)) by discriminate. tauto.
    + rewrite (bodies_other 1), (bodies_other 6), (bodies_other 8) by discriminate.
      destruct w as [|?|b|?]; cbn [merge_header];
        try (split; [discriminate|intros (_ & _ & (H & _) & _); destruct (H eq_refl)]).
      change (bodies 7 ((7, WLen b) :: fs)) with (b :: bodies 7 fs).
      fold (start_ckey (hd_payload_key h0)).
      assert (X1 : 7 = 1 -> a_len (WLen b)) by discriminate. assert (X2 : 7 = 6 -> a_len (WLen b)) by discriminate.
      assert (X3 : 7 = 7 -> a_len (WLen b)) by easy. assert (X4 : 7 = 8 -> a_len (WLen b)) by discriminate.
      destruct (dec_message (merge_ckey fuel) (start_ckey (hd_payload_key h0)) b) as [k|] eqn:E.
      * rewrite IH. cbn [hd_family hd_ephemeral_pk hd_payload_key hd_protected start_ckey].
        unfold dec_message in E. destruct (dec_fields b) as [gs|] eqn:Eg; [|discriminate].
        pose proof (proj1 (dec_fields_iff _ _) Eg) as Hg. split.
        -- intros (T1 & T6 & T7 & T8 & H1 & H2 & (gss & Hgs & H3) & H4).
           repeat (split; [tauto|]). split; [|exact H4].
           exists (gs :: gss). split; [now constructor|].
           cbn [concat]. rewrite merge_fields_split, E.
           destruct gss as [|gs' gss]; [exists k; now split|exact H3].
        -- intros ((_ & T1) & (_ & T6) & (_ & T7) & (_ & T8) & H1 & H2 & (gss & Hgs & H3) & H4).
           repeat (split; [tauto|]). split; [|exact H4].
           inversion Hgs as [|gs' b' gss' bs Hb Hr]; subst.
           assert (gs' = gs) by (apply dec_fields_iff in Hb; congruence). subst gs'.
           exists gss'. split; [exact Hr|].
           cbn [concat] in H3. rewrite merge_fields_split, E in H3.
           destruct gss' as [|gs' gss']; [|exact H3].
           destruct H3 as (k' & H3 & ->). cbn in H3. injection H3 as ->. reflexivity.
      * split; [discriminate|]. intros (_ & _ & _ & _ & _ & _ & (gss & Hgs & H3) & _).
        inversion Hgs as [|gs' b' gss' bs Hb Hr]; subst. apply dec_fields_iff in Hb.
        unfold dec_message in E. rewrite Hb in E. destruct H3 as (k' & H3 & _).
        cbn [concat] in H3. rewrite merge_fields_split, E in H3. discriminate.
    + rewrite (bodies_other 1), (bodies_other 6), (bodies_other 7) by discriminate.
      destruct w as [|?|b|?]; cbn [merge_header];
        try (split; [discriminate|intros (_ & _ & _ & (H & _) & _); destruct (H eq_refl)]).
      change (bodies 8 ((8, WLen b) :: fs)) with (b :: bodies 8 fs). rewrite last_cons, IH.
      cbn [hd_family hd_ephemeral_pk hd_payload_key hd_protected].
      assert (8 = 1 -> a_len (WLen b)) by discriminate. assert (8 = 6 -> a_len (WLen b)) by discriminate.
      assert (8 = 7 -> a_len (WLen b)) by discriminate. assert (8 = 8 -> a_len (WLen b)) by easy. tauto.
    + rewrite merge_header_other, IH by assumption.
      rewrite !bodies_other by assumption. tauto.
Qed.

Lemma bodies_app tag fs gs : bodies tag (fs ++ gs) = bodies tag fs ++ bodies tag gs.
Proof. apply flat_map_app. Qed.

Lemma header_decodes b h : decode_header b = Some h <-> exists fs, is_message fs b /\ header_means fs h.
Proof.
  unfold decode_header. rewrite dec_message_iff.
  assert (HX : forall fs, is_message fs b ->
            merge_fields (merge_header (S (length b))) (mkHeader None [] None []) fs = Some h <-> header_means fs h).
  { intros fs Hm. rewrite header_fold. unfold header_means, last_of.
    cbn [hd_family hd_ephemeral_pk hd_payload_key hd_protected start_ckey].
    assert (HG : forall gss k, Forall2 is_message gss (bodies 7 fs) ->
              merge_fields (merge_ckey (S (length b))) (0, []) (concat gss) = Some k <-> ckey_means (concat gss) k).
    { intros gss [t l] Hg. apply ckey_fields_mean.
      - intros y t' l' Hy. now apply ckey_decodes.
      - intros x Hx.
        assert (HA : forall y, In y (bodies 7 fs) -> (length y < length b)%nat)
          by (intros y Hy; exact (bodies_shorter _ _ _ _ Hm Hy)).
        revert Hx HA. induction Hg as [|gs c gss cs Hc Hr IHg]; cbn [concat]; [easy|].
        rewrite bodies_app, in_app_iff. intros [Hx|Hx] HA.
        + pose proof (bodies_shorter _ _ _ _ Hc Hx). specialize (HA c (or_introl eq_refl)). lia.
        + apply IHg; [exact Hx|]. intros y Hy. apply HA. now right. }
    split; intros (T1 & T6 & T7 & T8 & H1 & H2 & (gss & Hg & H3) & H4);
      repeat (split; [assumption|]); (split; [|exact H4]); exists gss; (split; [exact Hg|]);
      (destruct gss as [|gs gss]; [exact H3|]); destruct H3 as (k & H3 & H5); exists k; (split; [|exact H5]);
      now apply (HG _ k Hg). }
  split; intros (fs & Hm & H); exists fs; (split; [exact Hm|]); now apply HX.
Qed.

(** ** The protected header *)

Lemma protected_fold : forall fs p0 p,
  merge_fields merge_protected p0 fs = Some p <->
  typed 1 a_varint fs /\ typed 2 a_len fs /\ typed 4 a_fixed64 fs /\
  ph_auth_type p = last (map wrap32 (ints 1 fs)) (ph_auth_type p0) /\
  ph_sender_pk p = last (bodies 2 fs) (ph_sender_pk p0) /\
  ph_chunk_size p = last (fixed64s 4 fs) (ph_chunk_size p0).
Proof.
  induction fs as [|[tag w] fs IH]; intros p0 p.
  - cbn [merge_fields]. split.
    + intros H. injection H as <-. repeat split; apply typed_nil.
    + intros (_ & _ & _ & H1 & H2 & H3). cbn in *. destruct p, p0; cbn in *; congruence.
  - rewrite !typed_cons. cbn [merge_fields].
    destruct (N.eq_dec tag 1) as [->|N1]; [|destruct (N.eq_dec tag 2) as [->|N2];
      [|destruct (N.eq_dec tag 4) as [->|N4]]].
    + destruct w as [v| | |]; cbn [merge_protected a_varint];
        try (split; [discriminate|intros ((H & _) & _); destruct (H eq_refl)]).
      change (ints 1 ((1, WVarint v) :: fs)) with (v :: ints 1 fs). cbn [map]. rewrite last_cons, IH.
      cbn [ph_auth_type ph_sender_pk ph_chunk_size].
      change (bodies 2 ((1, WVarint v) :: fs)) with (bodies 2 fs).
      change (fixed64s 4 ((1, WVarint v) :: fs)) with (fixed64s 4 fs).
      assert (1 = 2 -> a_len (WVarint v)) by discriminate. assert (1 = 4 -> a_fixed64 (WVarint v)) by discriminate.
      tauto.
    + destruct w as [|?|b|?]; cbn [merge_protected];
        try (split; [discriminate|intros (_ & (H & _) & _); destruct (H eq_refl)]).
      change (bodies 2 ((2, WLen b) :: fs)) with (b :: bodies 2 fs). rewrite last_cons, IH.
      cbn [ph_auth_type ph_sender_pk ph_chunk_size].
      change (ints 1 ((2, WLen b) :: fs)) with (ints 1 fs).
      change (fixed64s 4 ((2, WLen b) :: fs)) with (fixed64s 4 fs).
      assert (2 = 1 -> a_varint (WLen b)) by discriminate. assert (2 = 4 -> a_fixed64 (WLen b)) by discriminate.
      assert (2 = 2 -> a_len (WLen b)) by easy. tauto.
    + destruct w as [|b|?|?]; cbn [merge_protected];
        try (split; [discriminate|intros (_ & _ & (H & _) & _); destruct (H eq_refl)]).
      change (fixed64s 4 ((4, WFixed64 b) :: fs)) with (le_value b :: fixed64s 4 fs). rewrite last_cons, IH.
      cbn [ph_auth_type ph_sender_pk ph_chunk_size].
      change (ints 1 ((4, WFixed64 b) :: fs)) with (ints 1 fs).
      change (bodies 2 ((4, WFixed64 b) :: fs)) with (bodies 2 fs).
      assert (4 = 1 -> a_varint (WFixed64 b)) by discriminate. assert (4 = 2 -> a_len (WFixed64 b)) by discriminate.
      assert (4 = 4 -> a_fixed64 (WFixed64 b)) by easy. tauto.
    + assert (merge_protected p0 (tag, w) = Some p0) as ->
        by (destruct tag as [|[q|[q|[q|q|]|]|]]; try reflexivity; congruence).
      rewrite IH.
      assert (ints 1 ((tag, w) :: fs) = ints 1 fs) as ->.
      { cbn [ints flat_map]. destruct w; try reflexivity. destruct (N.eqb_spec tag 1); [congruence|reflexivity]. }
      assert (fixed64s 4 ((tag, w) :: fs) = fixed64s 4 fs) as ->.
      { cbn [fixed64s flat_map]. destruct w; try reflexivity. destruct (N.eqb_spec tag 4); [congruence|reflexivity]. }
      rewrite bodies_other by assumption. tauto.
Qed.

Lemma protected_decodes b p : decode_protected b = Some p <-> exists fs, is_message fs b /\ protected_means fs p.
Proof.
  unfold decode_protected. rewrite dec_message_iff. unfold protected_means.
  split; intros (fs & Hm & H); exists fs; (split; [exact Hm|]).
  - apply protected_fold in H. cbn [ph_auth_type ph_sender_pk ph_chunk_size] in H.
    change (last (map wrap32 (ints 1 fs)) 0) with (last (map wrap32 (ints 1 fs)) (wrap32 0)) in H.
    rewrite last_map in H. exact H.
  - apply protected_fold. cbn [ph_auth_type ph_sender_pk ph_chunk_size].
    change (last (map wrap32 (ints 1 fs)) 0) with (last (map wrap32 (ints 1 fs)) (wrap32 0)).
    rewrite last_map. exact H.
Qed.

(** ** Unknown fields *)

Lemma is_message_app fs gs a b : is_message fs a -> is_message gs b -> is_message (fs ++ gs) (a ++ b).
Proof. induction 1; intros Hb; [exact Hb|]. cbn [app]. rewrite <- app_assoc. now constructor; auto. Qed.

Lemma is_message_det fs gs b : is_message fs b -> is_message gs b -> fs = gs.
Proof. rewrite <- !dec_fields_iff. congruence. Qed.

Lemma header_unknown fs tag w gs h :
  tag <> 1 -> tag <> 6 -> tag <> 7 -> tag <> 8 ->
  header_means (fs ++ (tag, w) :: gs) h <-> header_means (fs ++ gs) h.
Proof.
  intros H1 H6 H7 H8. unfold header_means.
  rewrite !typed_app, !typed_cons, !bodies_app, !bodies_other by assumption. tauto.
Qed.

Lemma header_skips_unknown a u b fs gs tag w :
  is_message fs a -> is_field (tag, w) u -> is_message gs b ->
  tag <> 1 -> tag <> 6 -> tag <> 7 -> tag <> 8 ->
  decode_header (a ++ u ++ b) = decode_header (a ++ b).
Proof.
  intros Ha Hu Hb H1 H6 H7 H8.
  assert (M1 : is_message (fs ++ (tag, w) :: gs) (a ++ u ++ b)) by (apply is_message_app; [|constructor]; assumption).
  assert (M2 : is_message (fs ++ gs) (a ++ b)) by now apply is_message_app.
  assert (HX : forall h, decode_header (a ++ u ++ b) = Some h <-> decode_header (a ++ b) = Some h).
  { intros h. rewrite !header_decodes. split; intros (ks & Hk & Hm).
    - assert (ks = fs ++ (tag, w) :: gs) by (eapply is_message_det; eassumption). subst ks.
      exists (fs ++ gs). split; [exact M2|]. now apply header_unknown in Hm.
    - assert (ks = fs ++ gs) by (eapply is_message_det; eassumption). subst ks.
      exists (fs ++ (tag, w) :: gs). split; [exact M1|]. now apply header_unknown. }
  destruct (decode_header (a ++ u ++ b)) as [h|].
  - symmetry. now apply HX.
  - destruct (decode_header (a ++ b)) as [h|]; [|reflexivity]. now apply HX.
Qed.

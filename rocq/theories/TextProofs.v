(** Proofs about the model of Rust text. *)
From Coq.Strings Require Import Byte.
From Coq Require Import List NArith Bool Lia PeanoNat.
From Verif Require Import Base BaseFacts Text.
Import ListNotations.
Local Open Scope N_scope.

(** Unicode scalar values. *)
Definition scalar (c : char) : Prop := c < 55296 \/ (57344 <= c /\ c < 1114112).

Lemma between_spec lo hi b : between lo hi b = true <-> lo <= b2n b <= hi.
Proof. unfold between. rewrite andb_true_iff, !N.leb_le. reflexivity. Qed.

Lemma between_n2b lo hi n : n < 256 -> between lo hi (n2b n) = ((lo <=? n) && (n <=? hi)).
Proof. intros L. unfold between. now rewrite b2n_n2b_small. Qed.

Ltac decide_n :=
  repeat match goal with
  | |- context [?a <=? ?b] => first [rewrite (proj2 (N.leb_le a b)) by lia | rewrite (proj2 (N.leb_gt a b)) by lia]
  | |- context [?a <? ?b] => first [rewrite (proj2 (N.ltb_lt a b)) by lia | rewrite (proj2 (N.ltb_ge a b)) by lia]
  | |- context [?a =? ?b] => first [rewrite (proj2 (N.eqb_eq a b)) by lia | rewrite (proj2 (N.eqb_neq a b)) by lia]
  end; cbn [andb orb negb].

Lemma cont_n2b r : r < 64 -> cont (n2b (128 + r)) = true.
Proof. intros L. unfold cont. rewrite between_n2b by lia. decide_n. reflexivity. Qed.

Lemma from_utf8_step b0 l1 : from_utf8 (b0 :: l1) =
      let x0 := b2n b0 in
      if x0 <? 128 then add_char x0 (from_utf8 l1)
      else if between 194 223 b0 then
        match l1 with
        | [] => Incomplete
        | b1 :: l2 =>
            if cont b1 then add_char ((x0 - 192) * 64 + (b2n b1 - 128)) (from_utf8 l2) else Invalid
        end
      else if between 224 239 b0 then
        match l1 with
        | [] => Incomplete
        | b1 :: l2 =>
            if second_ok b0 b1 then
              match l2 with
              | [] => Incomplete
              | b2 :: l3 =>
                  if cont b2 then
                    add_char ((x0 - 224) * 4096 + (b2n b1 - 128) * 64 + (b2n b2 - 128)) (from_utf8 l3)
                  else Invalid
              end
            else Invalid
        end
      else if between 240 244 b0 then
        match l1 with
        | [] => Incomplete
        | b1 :: l2 =>
            if second_ok b0 b1 then
              match l2 with
              | [] => Incomplete
              | b2 :: l3 =>
                  if cont b2 then
                    match l3 with
                    | [] => Incomplete
                    | b3 :: l4 =>
                        if cont b3 then
                          add_char ((x0 - 240) * 262144 + (b2n b1 - 128) * 4096 + (b2n b2 - 128) * 64 + (b2n b3 - 128))
                            (from_utf8 l4)
                        else Invalid
                    end
                  else Invalid
              end
            else Invalid
        end
      else Invalid
.
Proof. reflexivity. Qed.

(** Decoding the bytes of one character. *)
Lemma decode_char c rest : scalar c -> from_utf8 (encode_char c ++ rest) = add_char c (from_utf8 rest).
Proof.
  intros Sc. unfold encode_char.
  destruct (N.ltb_spec c 128) as [L1|L1]; [|destruct (N.ltb_spec c 2048) as [L2|L2];
    [|destruct (N.ltb_spec c 65536) as [L3|L3]]].
  - cbn [app]. rewrite from_utf8_step. cbv zeta. rewrite b2n_n2b_small by lia. decide_n. reflexivity.
  - pose proof (N.div_mod c 64 ltac:(lia)) as E. pose proof (N.mod_lt c 64 ltac:(lia)) as M.
    revert E M. generalize (c mod 64) (c / 64). intros r q E M.
    cbn [app]. rewrite from_utf8_step. cbv zeta. rewrite !b2n_n2b_small by lia. rewrite !between_n2b by lia. decide_n.
    rewrite cont_n2b by lia. f_equal. lia.
  - pose proof (N.div_mod c 64 ltac:(lia)) as E. pose proof (N.mod_lt c 64 ltac:(lia)) as M.
    pose proof (N.div_mod (c / 64) 64 ltac:(lia)) as E2. pose proof (N.mod_lt (c / 64) 64 ltac:(lia)) as M2.
    replace (c / 4096) with (c / 64 / 64) by (rewrite N.div_div by lia; reflexivity).
    revert E M E2 M2. generalize (c / 64) (c mod 64) (c / 64 mod 64) (c / 64 / 64). intros q r r2 q2 E M E2 M2.
    cbn [app]. rewrite from_utf8_step. cbv zeta. unfold second_ok. rewrite !b2n_n2b_small by lia. rewrite !between_n2b by lia.
    rewrite (cont_n2b r2), (cont_n2b r) by lia.
    assert ((if 224 + q2 =? 224 then (160 <=? 128 + r2) && (128 + r2 <=? 191) else
             if 224 + q2 =? 237 then (128 <=? 128 + r2) && (128 + r2 <=? 159) else true) = true) as K.
    { destruct (N.eqb_spec (224 + q2) 224); [apply andb_true_iff; split; apply N.leb_le; lia|].
      destruct (N.eqb_spec (224 + q2) 237); [|reflexivity].
      destruct Sc; apply andb_true_iff; split; apply N.leb_le; lia. }
    rewrite (proj2 (N.eqb_neq (224 + q2) 240)), (proj2 (N.eqb_neq (224 + q2) 244)) by lia. rewrite K.
    decide_n. f_equal. lia.
  - pose proof (N.div_mod c 64 ltac:(lia)) as E. pose proof (N.mod_lt c 64 ltac:(lia)) as M.
    pose proof (N.div_mod (c / 64) 64 ltac:(lia)) as E2. pose proof (N.mod_lt (c / 64) 64 ltac:(lia)) as M2.
    pose proof (N.div_mod (c / 64 / 64) 64 ltac:(lia)) as E3. pose proof (N.mod_lt (c / 64 / 64) 64 ltac:(lia)) as M3.
    replace (c / 262144) with (c / 64 / 64 / 64) by (rewrite !N.div_div by lia; reflexivity).
    replace (c / 4096) with (c / 64 / 64) by (rewrite N.div_div by lia; reflexivity).
    revert E M E2 M2 E3 M3. generalize (c / 64) (c mod 64) (c / 64 mod 64) (c / 64 / 64) (c / 64 / 64 mod 64) (c / 64 / 64 / 64).
    intros q r r2 q2 r3 q3 E M E2 M2 E3 M3.
    assert (c < 1114112) as Lc by (destruct Sc; lia).
    cbn [app]. rewrite from_utf8_step. cbv zeta. unfold second_ok. rewrite !b2n_n2b_small by lia. rewrite !between_n2b by lia.
    rewrite (cont_n2b r3), (cont_n2b r2), (cont_n2b r) by lia.
    assert ((if 240 + q3 =? 240 then (144 <=? 128 + r3) && (128 + r3 <=? 191) else
             if 240 + q3 =? 244 then (128 <=? 128 + r3) && (128 + r3 <=? 143) else true) = true) as K.
    { destruct (N.eqb_spec (240 + q3) 240); [apply andb_true_iff; split; apply N.leb_le; lia|].
      destruct (N.eqb_spec (240 + q3) 244); [|reflexivity]. apply andb_true_iff; split; apply N.leb_le; lia. }
    rewrite (proj2 (N.eqb_neq (240 + q3) 224)), (proj2 (N.eqb_neq (240 + q3) 237)) by lia. rewrite K.
    decide_n. f_equal. lia.
Qed.

Lemma decode_text t rest : Forall scalar t ->
  from_utf8 (utf8 t ++ rest) = fold_right add_char (from_utf8 rest) t.
Proof.
  unfold utf8. induction 1 as [|c t Hc Ht IH]; [reflexivity|]. cbn [map concat fold_right].
  rewrite <- app_assoc, decode_char by assumption. now rewrite IH.
Qed.

Lemma fold_add_char t u : fold_right add_char (Valid u) t = Valid (t ++ u).
Proof. induction t as [|c t IH]; [reflexivity|]. cbn [fold_right app]. now rewrite IH. Qed.

Lemma from_utf8_utf8 t : Forall scalar t -> from_utf8 (utf8 t) = Valid t.
Proof.
  intros H. rewrite <- (app_nil_r (utf8 t)), decode_text by assumption. cbn [from_utf8].
  rewrite fold_add_char. now rewrite app_nil_r.
Qed.

(** ** ASCII *)

Definition ascii (c : char) : Prop := c < 128.

Lemma ascii_scalar t : Forall ascii t -> Forall scalar t.
Proof. apply Forall_impl. unfold ascii, scalar. intros; lia. Qed.

Lemma ascii_length t : Forall ascii t -> length (utf8 t) = length t.
Proof.
  induction 1 as [|c t Hc Ht IH]; [reflexivity|]. unfold utf8 in *. cbn [map concat]. unfold encode_char at 1.
  unfold ascii in Hc. rewrite (proj2 (N.ltb_lt c 128)) by lia. cbn [app length]. now rewrite IH.
Qed.

Lemma utf8_app a b : utf8 (a ++ b) = utf8 a ++ utf8 b.
Proof. unfold utf8. now rewrite map_app, concat_app. Qed.

Lemma encode_char_length c : (1 <= length (encode_char c))%nat.
Proof. unfold encode_char. destruct (c <? 128), (c <? 2048), (c <? 65536); cbn [length]; lia. Qed.

Lemma utf8_length_ge t : (length t <= length (utf8 t))%nat.
Proof.
  induction t as [|c t IH]; [apply le_n|]. unfold utf8 in *. cbn [map concat length]. rewrite app_length.
  pose proof (encode_char_length c). lia.
Qed.

(** ** Lines *)

Lemma split_line_lf l rest : ~ In 10 l -> split_line (l ++ 10 :: rest) = (l, Some rest).
Proof.
  induction l as [|c l IH]; intros N; cbn [app split_line].
  - reflexivity.
  - destruct (N.eqb_spec c 10) as [->|Nc]; [exfalso; apply N; now left|].
    rewrite IH; [reflexivity|]. intros I. apply N. now right.
Qed.

Lemma lines_fuel_cons fuel l rest : ~ In 10 l -> (length (l ++ 10%N :: rest) <= fuel)%nat ->
  lines_fuel fuel (l ++ 10 :: rest) = drop_cr l :: lines_fuel (fuel - 1) rest.
Proof.
  intros N L. destruct fuel as [|fuel]; [rewrite app_length in L; cbn [length] in L; lia|].
  cbn [lines_fuel]. destruct (l ++ 10 :: rest) as [|c t] eqn:E; [destruct l; discriminate E|].
  rewrite <- E. rewrite split_line_lf by assumption. replace (S fuel - 1)%nat with fuel by lia. reflexivity.
Qed.

Lemma split_line_length t : forall a r, split_line t = (a, Some r) -> (length r < length t)%nat.
Proof.
  induction t as [|c t IH]; intros a r E; cbn [split_line] in E; [discriminate E|].
  destruct (c =? 10).
  - injection E as <- <-. cbn [length]. lia.
  - destruct (split_line t) as [a' r']. injection E as <- ->. specialize (IH _ _ eq_refl). cbn [length]. lia.
Qed.

Lemma lines_fuel_enough t : forall fuel, (length t <= fuel)%nat -> lines_fuel fuel t = lines t.
Proof.
  unfold lines. induction t as [t IH] using (well_founded_induction (Wf_nat.well_founded_ltof _ (@length char))).
  intros fuel L. destruct t as [|c t]; [destruct fuel; reflexivity|].
  destruct fuel as [|fuel]; [cbn [length] in L; lia|]. cbn [length lines_fuel].
  destruct (split_line (c :: t)) as [a [r|]] eqn:E; [|reflexivity].
  pose proof (split_line_length _ _ _ E) as Lr. cbn [length] in Lr, L.
  f_equal. rewrite (IH r) by (unfold Wf_nat.ltof; cbn [length]; lia || lia).
  symmetry. apply IH; unfold Wf_nat.ltof; cbn [length]; lia.
Qed.

Lemma lines_cons l rest : ~ In 10 l -> lines (l ++ 10 :: rest) = drop_cr l :: lines rest.
Proof.
  intros N. unfold lines at 1. rewrite lines_fuel_cons; [|assumption|apply le_n]. f_equal. apply lines_fuel_enough.
  rewrite app_length. cbn [length]. lia.
Qed.

Lemma drop_cr_id l : ~ In 13 l -> drop_cr l = l.
Proof.
  intros N. unfold drop_cr. destruct (rev l) as [|c r] eqn:E; [reflexivity|].
  destruct (N.eqb_spec c 13) as [->|]; [|reflexivity]. exfalso. apply N. apply in_rev. rewrite E. now left.
Qed.

(** ** Trimming *)

Lemma trim_start_id t : (forall c, In c t -> is_whitespace c = false) -> trim_start t = t.
Proof. destruct t as [|c t]; intros H; [reflexivity|]. cbn [trim_start]. rewrite H by now left. reflexivity. Qed.

Lemma trim_id t : (forall c, In c t -> is_whitespace c = false) -> trim t = t.
Proof.
  intros H. unfold trim. rewrite (trim_start_id t) by assumption.
  rewrite trim_start_id; [apply rev_involutive|]. intros c I. apply H, in_rev, I.
Qed.

(** ** Splitting at a byte position *)

Lemma split_at_ok {E} t : forall n a b, @split_at_byte E n t = Ok (a, b) -> t = a ++ b /\ lenN (utf8 a) = n.
Proof.
  induction t as [|c t IH]; intros n a b H; cbn [split_at_byte] in H.
  - destruct (N.eqb_spec n 0) as [->|]; [|discriminate H]. injection H as <- <-. split; reflexivity.
  - destruct (N.eqb_spec n 0) as [->|NZ]; [injection H as <- <-; split; reflexivity|].
    destruct (N.ltb_spec n (lenN (encode_char c))) as [L|L]; [discriminate H|].
    apply bind_ok in H as ([a' b'] & H & E'). injection E' as <- <-. destruct (IH _ _ _ H) as [-> El].
    split; [reflexivity|]. unfold utf8 in *. cbn [map concat]. unfold lenN in *. rewrite app_length. lia.
Qed.

Lemma split_at_app {E} a b : @split_at_byte E (lenN (utf8 a)) (a ++ b) = Ok (a, b).
Proof.
  induction a as [|c a IH]; cbn [app].
  - destruct b; reflexivity.
  - cbn [split_at_byte]. unfold utf8. cbn [map concat]. unfold lenN in *. rewrite app_length.
    pose proof (encode_char_length c) as L1.
    rewrite (proj2 (N.eqb_neq _ 0)) by lia. rewrite (proj2 (N.ltb_ge _ _)) by lia.
    replace (N.of_nat (length (encode_char c) + length (concat (map encode_char a))) - N.of_nat (length (encode_char c)))
      with (N.of_nat (length (utf8 a))) by (unfold utf8; lia).
    rewrite IH. reflexivity.
Qed.

Lemma split_at_not_err {E} t : forall n e, @split_at_byte E n t <> Err e.
Proof.
  induction t as [|c t IH]; intros n e H; cbn [split_at_byte] in H.
  - destruct (n =? 0); discriminate H.
  - destruct (n =? 0); [discriminate H|]. destruct (n <? _); [discriminate H|].
    destruct (split_at_byte _ t) as [[? ?]|e'|] eqn:S; try discriminate H. exact (IH _ _ S).
Qed.

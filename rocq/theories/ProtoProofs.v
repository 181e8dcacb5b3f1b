(** Decoding inverts encoding. *)
From Coq Require Import List NArith Bool Lia PeanoNat.
From Coq.Strings Require Import Byte.
From Verif Require Import Base BaseFacts Proto ProtoSpec.
Import ListNotations.
Local Open Scope N_scope.

Lemma kdata_rect' (P : kdata -> Prop) :
  P KNone -> (forall b, P (KEnc b)) ->
  (forall t l, Forall (fun p => P (snd p)) l -> P (KComp t l)) -> forall d, P d.
Proof.
  intros H0 H1 H2. fix IH 1. intros [|b|t l]; [exact H0|apply H1|]. apply H2.
  induction l as [|[n d] l IHl]; constructor; [apply IH | exact IHl].
Qed.

(** ** Varints *)

Lemma varint_go_dec fuel : forall n shift acc rest,
  n < 128 ^ N.of_nat fuel -> (0 < fuel)%nat ->
  dec_varint_go fuel shift acc (varint_go fuel n ++ rest) = Some (wrap64 (acc + n * shift), rest).
Proof.
  induction fuel as [|fuel IH]; intros n shift acc rest Hn Hf; [lia|].
  cbn [varint_go]. destruct (N.ltb_spec n 128) as [L|L].
  - cbn [app dec_varint_go]. rewrite b2n_n2b_small by lia.
    destruct (N.ltb_spec n 128); [|lia]. rewrite (N.mod_small n 128) by lia. reflexivity.
  - cbn [app dec_varint_go].
    pose proof (N.mod_lt n 128 ltac:(discriminate)) as M.
    pose proof (N.div_mod n 128 ltac:(discriminate)) as D.
    rewrite b2n_n2b_small by (revert M; generalize (n mod 128); lia).
    destruct (N.ltb_spec (n mod 128 + 128) 128) as [X|X]; [exfalso; revert X; generalize (n mod 128); lia|].
    replace ((n mod 128 + 128) mod 128) with (n mod 128).
    2:{ rewrite <- (N.mul_1_l 128) at 3. rewrite N.mod_add by discriminate. now rewrite N.mod_mod. }
    destruct fuel as [|fuel].
    { exfalso. change (128 ^ N.of_nat 1) with 128 in Hn. lia. }
    rewrite IH; [|apply N.div_lt_upper_bound; [discriminate|]|lia].
    + f_equal. f_equal. f_equal. rewrite D at 3.
      generalize (n mod 128), (n / 128). intros. lia.
    + replace (128 * 128 ^ N.of_nat (S fuel)) with (128 ^ N.of_nat (S (S fuel))); [exact Hn|].
      rewrite (Nat2N.inj_succ (S fuel)), N.pow_succ_r'. reflexivity.
Qed.

Lemma dec_varint_enc n rest : n < two64 -> dec_varint (varint n ++ rest) = Some (n, rest).
Proof.
  intros H. unfold dec_varint, varint. rewrite varint_go_dec; [|unfold two64 in H|lia].
  - unfold wrap64. rewrite N.mul_1_r, N.add_0_l, N.mod_small by exact H. reflexivity.
  - change (128 ^ N.of_nat 10) with 1180591620717411303424. lia.
Qed.

Lemma varint_go_nonempty fuel n : (0 < fuel)%nat -> varint_go fuel n <> [].
Proof. destruct fuel; [lia|]. intros _. simpl. destruct (n <? 128); discriminate. Qed.

Lemma varint_length n : (1 <= length (varint n))%nat.
Proof.
  pose proof (varint_go_nonempty 10 n ltac:(lia)). unfold varint. destruct (varint_go 10 n); [congruence|].
  simpl. lia.
Qed.

Lemma dec_varint_go_shorter fuel : forall shift acc b v rest,
  dec_varint_go fuel shift acc b = Some (v, rest) -> (length rest < length b)%nat.
Proof.
  induction fuel as [|fuel IH]; intros shift acc b v rest H; [discriminate|].
  destruct b as [|x b]; [discriminate|]. cbn [dec_varint_go] in H.
  destruct (b2n x <? 128).
  - inversion H; subst. simpl. lia.
  - apply IH in H. simpl. lia.
Qed.

Lemma dec_varint_shorter b v rest : dec_varint b = Some (v, rest) -> (length rest < length b)%nat.
Proof. apply dec_varint_go_shorter. Qed.

Lemma take_app b rest : take (lenN b) (b ++ rest) = Some (b, rest).
Proof.
  unfold take, lenN. rewrite app_length.
  destruct (N.ltb_spec (N.of_nat (length b + length rest)) (N.of_nat (length b))); [lia|].
  rewrite Nat2N.id, firstn_app_exact, skipn_app_exact. reflexivity.
Qed.

Lemma take_shorter n b x rest : take n b = Some (x, rest) -> (length rest <= length b)%nat.
Proof.
  unfold take. destruct (lenN b <? n); [discriminate|]. intros H; inversion H; subst.
  rewrite skipn_length. lia.
Qed.

(** ** Fields *)

Definition tag_ok (tag : N) : Prop := 1 <= tag < 536870912.

Lemma key_split tag w : w < 8 -> (tag * 8 + w) / 8 = tag /\ (tag * 8 + w) mod 8 = w.
Proof.
  intros. rewrite N.add_comm. split.
  - rewrite N.div_add by discriminate. rewrite N.div_small by assumption. lia.
  - rewrite N.mod_add by discriminate. apply N.mod_small. assumption.
Qed.

Lemma dec_field_len tag body rest :
  tag_ok tag -> lenN body < two64 ->
  dec_field (enc_len tag body ++ rest) = Some (tag, WLen body, rest).
Proof.
  intros [T1 T2] HB. unfold dec_field, enc_len, enc_key. rewrite <- !app_assoc.
  rewrite dec_varint_enc by (unfold two64; lia).
  destruct (N.leb_spec two32 (tag * 8 + 2)); [unfold two32 in *; lia|].
  destruct (key_split tag 2) as [-> ->]; [lia|].
  destruct (N.ltb_spec tag 1); [lia|].
  rewrite dec_varint_enc by exact HB. rewrite take_app. reflexivity.
Qed.

Lemma dec_field_varint tag v rest :
  tag_ok tag -> v < two64 ->
  dec_field ((enc_key tag 0 ++ varint v) ++ rest) = Some (tag, WVarint v, rest).
Proof.
  intros [T1 T2] HB. unfold dec_field, enc_key. rewrite <- !app_assoc.
  rewrite dec_varint_enc by (unfold two64; lia).
  destruct (N.leb_spec two32 (tag * 8 + 0)); [unfold two32 in *; lia|].
  destruct (key_split tag 0) as [-> ->]; [lia|].
  destruct (N.ltb_spec tag 1); [lia|].
  rewrite dec_varint_enc by exact HB. reflexivity.
Qed.

Lemma dec_field_fixed64 tag v rest :
  tag_ok tag ->
  dec_field ((enc_key tag 1 ++ le_bytes 8 v) ++ rest) = Some (tag, WFixed64 (le_bytes 8 v), rest).
Proof.
  intros [T1 T2]. unfold dec_field, enc_key. rewrite <- !app_assoc.
  rewrite dec_varint_enc by (unfold two64; lia).
  destruct (N.leb_spec two32 (tag * 8 + 1)); [unfold two32 in *; lia|].
  destruct (key_split tag 1) as [-> ->]; [lia|].
  destruct (N.ltb_spec tag 1); [lia|].
  replace 8 with (lenN (le_bytes 8 v)) at 1 by (unfold lenN; rewrite le_bytes_length; reflexivity).
  rewrite take_app. reflexivity.
Qed.

Lemma dec_field_shorter b tag w rest : dec_field b = Some (tag, w, rest) -> (length rest < length b)%nat.
Proof.
  unfold dec_field. destruct (dec_varint b) as [[key b1]|] eqn:E; [|discriminate].
  apply dec_varint_shorter in E.
  destruct (two32 <=? key); [discriminate|]. destruct (key / 8 <? 1); [discriminate|].
  destruct (key mod 8) as [|p].
  { destruct (dec_varint b1) as [[v b2]|] eqn:E2; [|discriminate]. apply dec_varint_shorter in E2.
    intros H; inversion H; subst. lia. }
  destruct p as [[p|[p|p|]|]|[p|p|]|]; try discriminate.
  - destruct (take 4 b1) as [[v b2]|] eqn:E2; [|discriminate]. apply take_shorter in E2.
    intros H; inversion H; subst. lia.
  - destruct (dec_varint b1) as [[v b2]|] eqn:E2; [|discriminate]. apply dec_varint_shorter in E2.
    destruct (take v b2) as [[x b3]|] eqn:E3; [|discriminate]. apply take_shorter in E3.
    intros H; inversion H; subst. lia.
  - destruct (take 8 b1) as [[v b2]|] eqn:E2; [|discriminate]. apply take_shorter in E2.
    intros H; inversion H; subst. lia.
Qed.

Lemma dec_fields_go_mono fuel : forall fuel' b l,
  dec_fields_go fuel b = Some l -> (fuel <= fuel')%nat -> dec_fields_go fuel' b = Some l.
Proof.
  induction fuel as [|fuel IH]; intros fuel' b l H Hle.
  - destruct b; simpl in H; [|discriminate]. inversion H; subst. destruct fuel'; reflexivity.
  - destruct b as [|x b].
    + simpl in H. inversion H; subst. destruct fuel'; reflexivity.
    + destruct fuel' as [|fuel']; [lia|]. cbn [dec_fields_go] in *.
      destruct (dec_field (x :: b)) as [[[tag w] b1]|]; [|discriminate].
      destruct (dec_fields_go fuel b1) as [l1|] eqn:E; [|discriminate].
      rewrite (IH fuel' b1 l1 E) by lia. exact H.
Qed.

Lemma dec_fields_cons b tag w rest l :
  dec_field b = Some (tag, w, rest) -> dec_fields rest = Some l ->
  dec_fields b = Some ((tag, w) :: l).
Proof.
  intros H1 H2. pose proof (dec_field_shorter _ _ _ _ H1) as HL.
  unfold dec_fields in *. destruct b as [|x b]; [simpl in HL; lia|].
  cbn [length dec_fields_go]. rewrite H1.
  rewrite (dec_fields_go_mono _ (length b) _ _ H2) by (simpl in HL; lia). reflexivity.
Qed.

Lemma dec_fields_nil : dec_fields [] = Some [].
Proof. reflexivity. Qed.

Lemma dec_fields_len tag body rest l :
  tag_ok tag -> lenN body < two64 -> dec_fields rest = Some l ->
  dec_fields (enc_len tag body ++ rest) = Some ((tag, WLen body) :: l).
Proof. intros. eapply dec_fields_cons; eauto. now apply dec_field_len. Qed.

(** Field lists produced by the scalar encoders. *)
Definition f_uint64 (tag v : N) : list (N * wire) := if v =? 0 then [] else [(tag, WVarint v)].
Definition f_bytes (tag : N) (b : bytes) : list (N * wire) := match b with [] => [] | _ => [(tag, WLen b)] end.

Lemma dec_fields_uint64 tag v rest l :
  tag_ok tag -> v < two64 -> dec_fields rest = Some l ->
  dec_fields (enc_uint64 tag v ++ rest) = Some (f_uint64 tag v ++ l).
Proof.
  intros. unfold enc_uint64, f_uint64. destruct (v =? 0); auto.
  simpl. eapply dec_fields_cons; eauto. now apply dec_field_varint.
Qed.

Lemma dec_fields_bytes tag b rest l :
  tag_ok tag -> lenN b < two64 -> dec_fields rest = Some l ->
  dec_fields (enc_bytes tag b ++ rest) = Some (f_bytes tag b ++ l).
Proof.
  intros. unfold enc_bytes, f_bytes. destruct b as [|x b]; auto. now apply dec_fields_len.
Qed.

Lemma dec_fields_fixed64 tag v rest l :
  tag_ok tag -> dec_fields rest = Some l ->
  dec_fields (enc_fixed64 tag v ++ rest)
  = Some ((if v =? 0 then [] else [(tag, WFixed64 (le_bytes 8 v))]) ++ l).
Proof.
  intros. unfold enc_fixed64. destruct (v =? 0); auto.
  simpl app at 2. eapply dec_fields_cons; eauto. now apply dec_field_fixed64.
Qed.

Lemma sext32_bound v : v < two32 -> sext32 v < two64.
Proof. unfold sext32, two32, two64. intros. destruct (v <? 2147483648); lia. Qed.

Lemma wrap32_sext32 v : v < two32 -> wrap32 (sext32 v) = v.
Proof.
  intros H. unfold wrap32, sext32. destruct (v <? 2147483648).
  - now apply N.mod_small.
  - replace (two64 - two32) with (4294967295 * two32) by reflexivity.
    rewrite N.mod_add by discriminate. now apply N.mod_small.
Qed.

Lemma dec_fields_enum tag v rest l :
  tag_ok tag -> v < two32 -> dec_fields rest = Some l ->
  dec_fields (enc_enum tag v ++ rest)
  = Some ((if v =? 0 then [] else [(tag, WVarint (sext32 v))]) ++ l).
Proof.
  intros. unfold enc_enum. destruct (v =? 0); auto.
  simpl app at 2. eapply dec_fields_cons; eauto. apply dec_field_varint; auto. now apply sext32_bound.
Qed.

Lemma merge_fields_app {A} (f : A -> N * wire -> option A) l k : forall a b,
  merge_fields f a l = Some b -> merge_fields f a (l ++ k) = merge_fields f b k.
Proof.
  induction l as [|x l IH]; intros a b H; simpl in *.
  - inversion H; subst. reflexivity.
  - destruct (f a x); [|discriminate]. now apply IH.
Qed.

(** ** Lengths *)

Lemma enc_len_length tag body :
  length (enc_len tag body) = (length (enc_key tag 2) + length (varint (lenN body)) + length body)%nat.
Proof. unfold enc_len. rewrite !app_length. lia. Qed.

Lemma enc_len_longer tag body : (length body + 2 <= length (enc_len tag body))%nat.
Proof.
  rewrite enc_len_length. pose proof (varint_length (tag * 8 + 2)). pose proof (varint_length (lenN body)).
  unfold enc_key. lia.
Qed.

Lemma concat_map_length {A} (f : A -> bytes) l x : In x l -> (length (f x) <= length (concat (map f l)))%nat.
Proof.
  induction l as [|y l IH]; simpl; [tauto|]. rewrite app_length. intros [->|H]; [lia|]. apply IH in H. lia.
Qed.

(** ** Composite keys *)

Lemma kdata_u64_comp t l :
  kdata_u64 (KComp t l) <-> t < two64 /\ Forall (fun p => fst p < two64 /\ kdata_u64 (snd p)) l.
Proof.
  cbn [kdata_u64]. split; intros [H1 H2]; split; auto.
  - induction l as [|[n d] l IH]; constructor; simpl in *; tauto.
  - induction H2 as [|[n d] l H _ IH]; simpl in *; tauto.
Qed.

Definition merge_kparts (fuel : nat) (p : N * kdata) (f : N * wire) : option (N * kdata) :=
  match f with
  | (1, WVarint v) => Some (v, snd p)
  | (1, _) => None
  | (2, WLen b) => Some (fst p, KEnc b)
  | (2, _) => None
  | (3, WLen b) =>
      match dec_message (merge_ckey fuel) (0, []) b with
      | Some (t, l) => Some (fst p, KComp t l)
      | None => None
      end
  | (3, _) => None
  | _ => Some p
  end.

Lemma merge_ckey_part fuel t parts b :
  merge_ckey (S fuel) (t, parts) (2, WLen b) =
  match dec_message (merge_kparts fuel) (0, KNone) b with
  | Some p => Some (t, parts ++ [p])
  | None => None
  end.
Proof. reflexivity. Qed.

Lemma enc_ckey_kcomp t l : enc_kdata (KComp t l) = enc_len 3 (enc_ckey (t, l)).
Proof.
  cbn [enc_kdata]. unfold enc_ckey. cbn [fst snd]. do 3 f_equal.
  apply map_ext. intros [n d]. reflexivity.
Qed.

Lemma ckey_fields t l :
  t < two64 -> lenN (enc_ckey (t, l)) < two64 ->
  dec_fields (enc_ckey (t, l)) = Some (f_uint64 1 t ++ map (fun p => (2, WLen (enc_kparts p))) l).
Proof.
  intros Ht HL. unfold enc_ckey in *. cbn [fst snd] in *.
  apply dec_fields_uint64; [split; lia|exact Ht|].
  assert (HL2 : lenN (concat (map (fun p => enc_len 2 (enc_kparts p)) l)) < two64).
  { unfold lenN in *. rewrite app_length in HL. lia. }
  clear HL. induction l as [|p l IH]; [reflexivity|]. cbn [map concat] in *.
  unfold lenN in HL2. rewrite app_length in HL2. pose proof (enc_len_longer 2 (enc_kparts p)).
  apply dec_fields_len; [split; lia| unfold lenN; lia|]. apply IH. unfold lenN. lia.
Qed.

(** Decoding of one [EncryptedKeyParts]. *)
Definition kparts_round (d : kdata) : Prop :=
  forall n fuel, n < two64 -> kdata_u64 d -> lenN (enc_kparts (n, d)) < two64 ->
    (length (enc_kdata d) < fuel)%nat ->
    dec_message (merge_kparts fuel) (0, KNone) (enc_kparts (n, d)) = Some (n, d).

Lemma ckey_round fuel t0 l0 t l :
  t < two64 -> Forall (fun p => fst p < two64 /\ kdata_u64 (snd p)) l ->
  lenN (enc_ckey (t, l)) < two64 ->
  Forall (fun p => kparts_round (snd p)) l ->
  (length (enc_ckey (t, l)) <= fuel)%nat -> (0 < fuel)%nat ->
  dec_message (merge_ckey fuel) (t0, l0) (enc_ckey (t, l))
  = Some (if t =? 0 then t0 else t, l0 ++ l).
Proof.
  intros Ht HF HL HR Hfuel Hpos. unfold dec_message. rewrite ckey_fields by assumption.
  destruct fuel as [|fuel]; [lia|].
  rewrite (merge_fields_app _ _ _ _ (if t =? 0 then t0 else t, l0)).
  2:{ unfold f_uint64. destruct (t =? 0); reflexivity. }
  generalize (if t =? 0 then t0 else t). intros tt.
  assert (Hp : forall p, In p l -> (length (enc_kdata (snd p)) < fuel)%nat /\ lenN (enc_kparts p) < two64).
  { intros p Hp.
    pose proof (concat_map_length (fun p => enc_len 2 (enc_kparts p)) l p Hp) as C.
    pose proof (enc_len_longer 2 (enc_kparts p)) as E.
    assert (Q : (length (enc_kdata (snd p)) <= length (enc_kparts p))%nat)
      by (unfold enc_kparts; rewrite app_length; lia).
    unfold enc_ckey in *. cbn [fst snd] in *. unfold lenN in *. rewrite app_length in *. lia. }
  clear Hfuel HL Hpos. revert l0.
  induction l as [|p l IH]; intros l0; cbn [map merge_fields].
  - rewrite app_nil_r. reflexivity.
  - rewrite merge_ckey_part.
    inversion HF as [|? ? [F1 F2] F3]; subst. inversion HR as [|? ? R1 R2]; subst.
    destruct (Hp p) as [P1 P2]; [left; reflexivity|].
    destruct p as [n d]. cbn [fst snd] in *. rewrite R1 by assumption.
    rewrite IH; auto. 2:{ intros p Hin. apply Hp. right; exact Hin. }
    rewrite <- app_assoc. reflexivity.
Qed.

Lemma kparts_round_all d : kparts_round d.
Proof.
  induction d as [|b|t l IH] using kdata_rect'; intros n fuel Hn Hu HL Hf.
  - unfold enc_kparts, dec_message. cbn [fst snd enc_kdata].
    rewrite (dec_fields_uint64 1 n [] []); auto; [|split; lia].
    unfold f_uint64. destruct (N.eqb_spec n 0); [subst|]; reflexivity.
  - unfold enc_kparts, dec_message in *. cbn [fst snd enc_kdata] in *.
    pose proof (enc_len_longer 2 b).
    rewrite (dec_fields_uint64 1 n (enc_len 2 b) [(2, WLen b)]); auto; [|split; lia|].
    2:{ rewrite <- (app_nil_r (enc_len 2 b)). apply dec_fields_len; auto; [split; lia|].
        unfold lenN in *. rewrite app_length in HL. lia. }
    unfold f_uint64. destruct (N.eqb_spec n 0); [subst|]; reflexivity.
  - unfold enc_kparts, dec_message in *. cbn [fst snd] in *. rewrite enc_ckey_kcomp in *.
    pose proof (enc_len_longer 3 (enc_ckey (t, l))) as EL.
    assert (HL2 : lenN (enc_ckey (t, l)) < two64) by (unfold lenN in *; rewrite app_length in HL; lia).
    rewrite (dec_fields_uint64 1 n (enc_len 3 (enc_ckey (t, l))) [(3, WLen (enc_ckey (t, l)))]); auto; [|split; lia|].
    2:{ rewrite <- (app_nil_r (enc_len 3 _)). apply dec_fields_len; auto. split; lia. }
    assert (E : dec_message (merge_ckey fuel) (0, []) (enc_ckey (t, l)) = Some (t, l)).
    { apply kdata_u64_comp in Hu. destruct Hu as [U1 U2]. rewrite ckey_round; auto; try lia.
      destruct (N.eqb_spec t 0); subst; reflexivity. }
    rewrite (merge_fields_app _ (f_uint64 1 n) _ _ (n, KNone)).
    2:{ unfold f_uint64. destruct (N.eqb_spec n 0); [subst|]; reflexivity. }
    cbn [merge_fields]. unfold merge_kparts. rewrite E. reflexivity.
Qed.

Lemma ckey_round_trip fuel t l :
  t < two64 -> Forall (fun p => fst p < two64 /\ kdata_u64 (snd p)) l ->
  lenN (enc_ckey (t, l)) < two64 -> (length (enc_ckey (t, l)) <= fuel)%nat -> (0 < fuel)%nat ->
  dec_message (merge_ckey fuel) (0, []) (enc_ckey (t, l)) = Some (t, l).
Proof.
  intros. rewrite ckey_round; auto.
  - destruct (N.eqb_spec t 0); subst; reflexivity.
  - apply Forall_forall. intros p _. apply kparts_round_all.
Qed.

(** ** Whole messages *)

Lemma header_round_trip h :
  header_u64 h -> lenN (encode_header h) < two64 ->
  decode_header (encode_header h) = Some h.
Proof.
  destruct h as [fam epk pk prot]. intros [HA HK] HL. unfold decode_header, dec_message.
  set (fuel := S (length (encode_header _))).
  assert (Hfuel : (length (encode_header (mkHeader fam epk pk prot)) < fuel)%nat) by (unfold fuel; lia).
  clearbody fuel.
  unfold encode_header in *. cbn [hd_family hd_ephemeral_pk hd_payload_key hd_protected] in *.
  set (A := match fam with None => [] | Some alg => enc_len 1 (enc_enum 1 alg) end) in *.
  set (K := match pk with None => [] | Some k => enc_len 7 (enc_ckey k) end) in *.
  unfold lenN in HL. rewrite !app_length in HL, Hfuel.
  assert (LE : (length epk <= length (enc_bytes 6 epk))%nat).
  { unfold enc_bytes. destruct epk; [simpl; lia|]. pose proof (enc_len_longer 6 (b :: epk)). lia. }
  assert (LP : (length prot <= length (enc_bytes 8 prot))%nat).
  { unfold enc_bytes. destruct prot; [simpl; lia|]. pose proof (enc_len_longer 8 (b :: prot)). lia. }
  assert (FA : forall rest l, dec_fields rest = Some l ->
     dec_fields (A ++ rest) = Some (match fam with None => [] | Some alg => [(1, WLen (enc_enum 1 alg))] end ++ l)).
  { intros rest l Hr. unfold A in *. destruct fam as [alg|]; auto.
    pose proof (enc_len_longer 1 (enc_enum 1 alg)).
    apply dec_fields_len; auto; [split; lia|]. unfold lenN. lia. }
  assert (FK : forall rest l, dec_fields rest = Some l ->
     dec_fields (K ++ rest) = Some (match pk with None => [] | Some k => [(7, WLen (enc_ckey k))] end ++ l)).
  { intros rest l Hr. unfold K in *. destruct pk as [k|]; auto.
    pose proof (enc_len_longer 7 (enc_ckey k)).
    apply dec_fields_len; auto; [split; lia|]. unfold lenN. lia. }
  rewrite (FA _ (f_bytes 6 epk ++ match pk with None => [] | Some k => [(7, WLen (enc_ckey k))] end ++ f_bytes 8 prot)).
  2:{ apply dec_fields_bytes; [split; lia|unfold lenN; lia|]. apply FK.
      rewrite <- (app_nil_r (enc_bytes 8 prot)), <- (app_nil_r (f_bytes 8 prot)).
      apply dec_fields_bytes; [split; lia|unfold lenN; lia|reflexivity]. }
  rewrite (merge_fields_app _ _ _ _ (mkHeader fam [] None [])).
  2:{ destruct fam as [alg|]; [|reflexivity]. cbn [merge_fields merge_header].
      unfold dec_message. rewrite <- (app_nil_r (enc_enum 1 alg)).
      rewrite (dec_fields_enum 1 alg [] []); auto; [|split; lia].
      destruct (N.eqb_spec alg 0); [subst; reflexivity|].
      cbn [app merge_fields merge_libsodium]. rewrite wrap32_sext32 by assumption. reflexivity. }
  rewrite (merge_fields_app _ _ _ _ (mkHeader fam epk None [])).
  2:{ destruct epk; reflexivity. }
  rewrite (merge_fields_app _ _ _ _ (mkHeader fam epk pk [])).
  2:{ destruct pk as [[t l]|]; [|reflexivity]. destruct HK as [K1 K2].
      cbn [merge_fields]. unfold merge_header. cbn [hd_payload_key hd_family hd_ephemeral_pk hd_protected].
      unfold K in *. pose proof (enc_len_longer 7 (enc_ckey (t, l))).
      rewrite ckey_round_trip; auto; [unfold lenN; lia|lia|lia]. }
  destruct prot; reflexivity.
Qed.

Lemma protected_round_trip p :
  ph_auth_type p < two32 -> ph_chunk_size p < two64 -> lenN (ph_sender_pk p) < two64 ->
  decode_protected (encode_protected p) = Some p.
Proof.
  destruct p as [a pk c]. cbn [ph_auth_type ph_sender_pk ph_chunk_size]. intros HA HC HP.
  unfold decode_protected, dec_message, encode_protected. cbn [ph_auth_type ph_sender_pk ph_chunk_size].
  rewrite (dec_fields_enum 1 a _ (f_bytes 2 pk ++ if c =? 0 then [] else [(4, WFixed64 (le_bytes 8 c))])); auto; [|split; lia|].
  2:{ apply dec_fields_bytes; auto; [split; lia|].
      rewrite <- (app_nil_r (enc_fixed64 4 c)), <- (app_nil_r (if c =? 0 then [] else _)).
      apply dec_fields_fixed64; auto. split; lia. }
  rewrite (merge_fields_app _ _ _ _ (mkProtected a [] 0)).
  2:{ destruct (N.eqb_spec a 0); [subst; reflexivity|]. cbn [merge_fields merge_protected].
      rewrite wrap32_sext32 by assumption. reflexivity. }
  rewrite (merge_fields_app _ _ _ _ (mkProtected a pk 0)).
  2:{ destruct pk; reflexivity. }
  destruct (N.eqb_spec c 0); [subst; reflexivity|]. cbn [merge_fields merge_protected ph_auth_type ph_sender_pk].
  rewrite le_value_le_bytes. change (256 ^ N.of_nat 8) with two64. rewrite N.mod_small by exact HC. reflexivity.
Qed.

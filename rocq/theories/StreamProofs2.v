(** Authenticity of the encrypted stream. *)
From Coq Require Import List NArith Bool Lia Arith.
From Coq.Strings Require Import Byte.
From Verif Require Import Base BaseFacts Shamir Errors Io HeaderIoSpec HeaderIoProofs Crypto HeaderCrypto StreamCrypto Pipeline
  PipelineSpec StreamSpec ChunkProofs PipelineProofs PipelineProofs2 PipelineProofs3 FileCrypto StreamProofs AuthSpec.
Import ListNotations.

Lemma chunk_nonce_spec i : (N.of_nat i < two64)%N -> chunk_nonce (wrap64 (N.of_nat i)) = nonce_of_chunk i.
Proof.
  intros Hi. unfold chunk_nonce, nonce_of_chunk. change (firstn CHUNK_IDX_POS CHUNK_NONCE) with [x72; x79; x63; x68].
  f_equal. unfold wrap64. rewrite N.mod_small by exact Hi. generalize (N.of_nat i). intros m.
  change 8 with (length (repeat 0 8)) at 1. cbn [repeat length le_bytes seq map].
  change (256 ^ N.of_nat 0)%N with 1%N. rewrite N.div_1_r.
  rewrite !N.div_div by discriminate.
  assert (Hm : forall x, n2b (x mod 256) = n2b x).
  { intros x. apply b2n_inj. rewrite !b2n_n2b. apply N.mod_mod. discriminate. }
  rewrite !Hm. reflexivity.
Qed.

Lemma chunk_nonce_inj i j : (N.of_nat i < two64)%N -> (N.of_nat j < two64)%N ->
  nonce_of_chunk i = nonce_of_chunk j -> i = j.
Proof.
  intros Hi Hj H. rewrite <- !chunk_nonce_spec in H by assumption. unfold chunk_nonce in H. apply app_inv_head in H.
  unfold wrap64 in H. rewrite !N.mod_small in H by assumption.
  apply le_bytes_inj in H; [lia|..]; (change (256 ^ N.of_nat 8)%N with two64; assumption).
Qed.

Lemma ad_inj h h' l l' : ad_of_chunk h l = ad_of_chunk h' l' -> h = h' /\ l = l'.
Proof.
  unfold ad_of_chunk. intros H. apply app_inj_tail in H. destruct H as [-> H]. split; [reflexivity|].
  destruct l, l'; try reflexivity; discriminate.
Qed.

Lemma sealed_eq_dec (a b : sealed) : {a = b} + {a <> b}.
Proof. destruct a, b. decide equality; apply bytes_eq_dec. Defined.

Section Auth.
Context (cod : codec) (Hcs : crypto_ok (co_cs cod)) (He : co_encrypting cod = true).
Context (c : nat) (Hc : 1 <= c) (m : bytes) (Hm : (lenN m < two64)%N).
Let dec := decrypting cod.
Let made := sealed_data (co_cs cod) (co_key cod) (co_header_hash cod) c m.
Let P := chunks c m.
Let H := enc_chunks cod c m.

Lemma count64 n d i : 1 <= n -> (lenN d < two64)%N -> i < length (chunks n d) -> (N.of_nat i < two64)%N.
Proof.
  intros Hn Hd Hi. apply chunks_lt in Hi; [|assumption]. destruct Hi as [->|Hi]; [reflexivity|].
  assert (i < length d) by nia. unfold lenN in Hd. lia.
Qed.

Lemma made_in s : In s made -> exists i, i < length P /\
  s = mkSealed (nonce_of_chunk i) (ad_of_chunk (co_header_hash cod) (Nat.eqb (S i) (length P))) (nth i H []).
Proof.
  intros Hs. unfold made, sealed_data in Hs. apply in_map_iff in Hs. destruct Hs as ([i [b l]] & <- & Hin).
  apply (In_nth _ _ (0, ([], false))) in Hin. destruct Hin as (k & Hk & Hin).
  rewrite combine_length, seq_length, flag_last_length, Nat.min_id in Hk.
  rewrite combine_nth in Hin by (rewrite seq_length, flag_last_length; reflexivity).
  rewrite seq_nth in Hin by assumption. rewrite flag_last_nth in Hin by assumption. cbn [Nat.add] in Hin.
  injection Hin as <- <- <-. exists k. split; [assumption|]. cbn [fst snd].
  destruct (enc_chunks_nth cod Hcs He c Hc m k Hk) as (Hx & _ & _). unfold convert_chunk in Hx. rewrite He in Hx.
  rewrite chunk_nonce_spec in Hx by (eapply count64; eauto). fold P in Hx |- *.
  unfold seal. change (chunk_ad (co_header_hash cod) (S k =? length P)) with (ad_of_chunk (co_header_hash cod) (S k =? length P)) in Hx.
  destruct (cs_aead_encrypt _ _ _ _ _) as [ct tag]. injection Hx as ->. reflexivity.
Qed.

(** What acceptance of one chunk means. *)
Lemma accept_chunk cod' b l i b' : co_encrypting cod' = false ->
  convert_chunk cod' b l (wrap64 (N.of_nat i)) = Ok b' -> (N.of_nat i < two64)%N ->
  accepted (co_cs cod') (co_key cod') (mkSealed (nonce_of_chunk i) (ad_of_chunk (co_header_hash cod') l) b).
Proof.
  intros He' Hx Hi. unfold convert_chunk in Hx. rewrite He' in Hx.
  destruct (Nat.ltb_spec (length b) AEAD_MAC_LEN) as [Hl|Hl]; [discriminate|]. unfold AEAD_MAC_LEN in *.
  rewrite chunk_nonce_spec in Hx by assumption.
  destruct (cs_aead_decrypt _ _ _ _ _ _) as [pt|] eqn:Ed; [|discriminate].
  exists (firstn (length b - 16) b), (skipn (length b - 16) b), pt. cbn [se_ct se_ad se_nonce].
  split; [symmetry; apply firstn_skipn|]. split; [rewrite skipn_length; lia|exact Ed].
Qed.

(** Each accepted chunk is a forgery or the honest chunk of that position. *)
Lemma chunk_authentic shown b l i b' :
  In (mkSealed (nonce_of_chunk i) (ad_of_chunk (co_header_hash cod) l) b) shown ->
  convert_chunk dec b l (wrap64 (N.of_nat i)) = Ok b' -> (N.of_nat i < two64)%N ->
  forgery (co_cs cod) (co_key cod) made shown \/
  (i < length P /\ b = nth i H [] /\ l = Nat.eqb (S i) (length P) /\ b' = nth i P []).
Proof.
  intros Hsh Hx Hi. pose proof (accept_chunk dec b l i b' eq_refl Hx Hi) as Ha. cbn [co_cs co_key co_header_hash dec decrypting] in Ha.
  destruct (in_dec sealed_eq_dec (mkSealed (nonce_of_chunk i) (ad_of_chunk (co_header_hash cod) l) b) made) as [Hin|Hin].
  - right. apply made_in in Hin. destruct Hin as (j & Hj & E).
    pose proof (f_equal se_nonce E) as E1. pose proof (f_equal se_ad E) as E2. pose proof (f_equal se_ct E) as E3.
    cbn [se_nonce se_ad se_ct] in E1, E2, E3.
    assert (Hj64 : (N.of_nat j < two64)%N) by (eapply count64; [exact Hc|exact Hm|exact Hj]).
    apply chunk_nonce_inj in E1; [|assumption|assumption]. subst j. apply ad_inj in E2. destruct E2 as [_ ->]. subst b.
    repeat split; [assumption|]. destruct (enc_chunks_nth cod Hcs He c Hc m i Hj) as (_ & _ & Hd).
    fold dec H P in Hd. rewrite Hd in Hx. injection Hx as ->. reflexivity.
  - left. eexists. split; [exact Hsh|]. split; [exact Ha|exact Hin].
Qed.

(** The sequential decryption of an arbitrary list of chunks. *)
Lemma seq_authentic shown E : (forall i, i < length E -> (N.of_nat i < two64)%N) ->
  (forall i, i < length E -> In (mkSealed (nonce_of_chunk i)
     (ad_of_chunk (co_header_hash cod) (snd (nth i E ([], false)))) (fst (nth i E ([], false)))) shown) ->
  forgery (co_cs cod) (co_key cod) made shown \/
  (let R := fst (convert_seq (convert_chunk dec) 0 E) in
   R = firstn (length R) P /\ length R <= length P /\
   forall i, i < length R -> nth i E ([], false) = (nth i H [], Nat.eqb (S i) (length P))).
Proof.
  intros H64 Hsh. set (R := fst (convert_seq (convert_chunk dec) 0 E)).
  assert (Hle : length R <= length E) by apply convert_seq_le.
  assert (HR : forall k, k <= length R -> forgery (co_cs cod) (co_key cod) made shown \/
    forall i, i < k -> i < length P /\ nth i R [] = nth i P [] /\ nth i E ([], false) = (nth i H [], Nat.eqb (S i) (length P))).
  { induction k as [|k IH]; intros Hk; [right; intros; lia|].
    destruct (IH ltac:(lia)) as [F|IH']; [left; assumption|].
    pose proof (convert_seq_nth (convert_chunk dec) 0 E k ltac:(fold R; lia)) as Hx. unfold conv_at in Hx. cbn [Nat.add] in Hx. fold R in Hx.
    destruct (chunk_authentic shown _ _ _ _ (Hsh k ltac:(lia)) Hx (H64 k ltac:(lia))) as [F|(A1 & A2 & A3 & A4)]; [left; assumption|].
    right. intros i Hi. destruct (Nat.eq_dec i k) as [->|]; [|apply IH'; lia].
    split; [assumption|]. split; [assumption|]. rewrite <- A2, <- A3. apply surjective_pairing. }
  destruct (HR (length R) (le_n _)) as [F|HR']; [left; assumption|]. right. cbn zeta.
  assert (HRP : length R <= length P).
  { destruct (length R) as [|k]; [lia|]. destruct (HR' k ltac:(lia)) as (? & _). lia. }
  split; [|split; [assumption|]].
  - apply (list_ext []); [rewrite firstn_length; lia|]. intros i Hi.
    destruct (HR' i Hi) as (_ & -> & _). symmetry. rewrite <- (firstn_skipn (length R) P) at 2. rewrite app_nth1; [reflexivity|].
    rewrite firstn_length. lia.
  - intros i Hi. apply HR'. assumption.
Qed.

(** Decrypting any source. *)
Lemma presented_in h n src i : i < length (input_chunks n src) ->
  In (mkSealed (nonce_of_chunk i) (ad_of_chunk h (snd (nth i (input_chunks n src) ([], false))))
        (fst (nth i (input_chunks n src) ([], false)))) (presented h n src).
Proof.
  intros Hi. unfold presented. apply in_map_iff. exists (i, nth i (input_chunks n src) ([], false)). split; [reflexivity|].
  replace (i, nth i (input_chunks n src) ([], false)) with
    (nth i (combine (seq 0 (length (input_chunks n src))) (input_chunks n src)) (0, ([], false))).
  - apply nth_In. rewrite combine_length, seq_length. lia.
  - rewrite combine_nth by apply seq_length. rewrite seq_nth by assumption. reflexivity.
Qed.

Lemma source_authentic src : (lenN (flat src) < two64)%N ->
  forgery (co_cs cod) (co_key cod) made (presented (co_header_hash cod) (c + 16) src) \/
  (exists k, seq_converted (convert_chunk dec) (c + 16) src = firstn k P) /\
  (seq_input_ok (convert_chunk dec) (c + 16) src = true ->
     flat src = concat H /\ seq_converted (convert_chunk dec) (c + 16) src = P).
Proof.
  intros Hs. assert (Hn : 1 <= c + 16) by lia.
  destruct (seq_authentic (presented (co_header_hash cod) (c + 16) src) (input_chunks (c + 16) src)) as [F|(A1 & A2 & A3)].
  { intros i Hi. apply (count64 (c + 16) (flat src)); [assumption|assumption|].
    pose proof (input_length (c + 16) src) as Hl. destruct (ends_in_error src); lia. }
  { intros i Hi. apply presented_in. assumption. }
  { left. assumption. }
  right. unfold seq_converted. set (R := fst (convert_seq (convert_chunk dec) 0 (input_chunks (c + 16) src))) in *. split; [eauto|].
  unfold seq_input_ok. intros Hok. apply andb_prop in Hok. destruct Hok as [Hok1 Hok2].
  apply negb_true_iff in Hok1. apply convert_seq_ok in Hok2. fold R in Hok2.
  pose proof (input_length (c + 16) src) as Hl. rewrite Hok1 in Hl.
  pose proof (chunks_length_pos (c + 16) (flat src) Hn) as Hp.
  unfold input_chunks in A3, Hok2, Hl. rewrite Hok1 in A3, Hok2, Hl.
  assert (Hlast : length R = length P).
  { specialize (A3 (length R - 1) ltac:(lia)). rewrite flag_last_nth in A3 by lia. apply (f_equal snd) in A3. cbn [snd] in A3.
    assert (Hx : (S (length R - 1) =? length (chunks (c + 16) (flat src))) = true) by (apply Nat.eqb_eq; lia).
    rewrite Hx in A3. symmetry in A3. apply Nat.eqb_eq in A3. lia. }
  split; [|rewrite A1, Hlast; apply firstn_all].
  rewrite <- (chunks_concat (c + 16) (flat src)) by assumption. f_equal.
  apply (list_ext []).
  - unfold H. rewrite enc_chunks_length by assumption. fold P. lia.
  - intros i Hi. specialize (A3 i ltac:(lia)). rewrite flag_last_nth in A3 by assumption. apply (f_equal fst) in A3.
    exact A3.
Qed.

End Auth.

Lemma concat_firstn_chunks c m k : 1 <= c -> k <= length (chunks c m) -> concat (firstn k (chunks c m)) = firstn (k * c) m.
Proof.
  intros Hc. induction k as [|k IH]; intros Hk; [reflexivity|].
  rewrite (firstn_S_snoc _ k []) by lia. rewrite concat_app, IH by lia. cbn [concat]. rewrite app_nil_r.
  rewrite chunks_nth by lia.
  replace (S k * c) with (k * c + c) by lia. generalize (k * c). intros j.
  rewrite <- (firstn_skipn j (firstn (j + c) m)). rewrite firstn_firstn, Nat.min_l by lia. f_equal.
  rewrite firstn_skipn_comm. reflexivity.
Qed.

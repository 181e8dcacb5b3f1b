(** Proofs for C88: what a conversion gives depends on the bytes and the credentials only. *)
From Coq.Strings Require Import Byte String.
From Coq Require Import List NArith ZArith Bool PeanoNat Lia.
From Verif Require Import Base BaseFacts Shamir Errors Io HeaderIo HeaderIoSpec HeaderIoProofs StreamSpec ChunkProofs Crypto Proto HeaderCrypto CredSpec
  HeaderCryptoProofs2 StreamCrypto Pipeline PipelineSpec PipelineProofs4 FileCrypto StreamProofs StreamProofs3 FileSpec FileProofs Ui Cli Fs Commands FsSpec
  ConvProofs HideProofs3 SameSpec.
Import ListNotations.
Local Open Scope nat_scope.

Lemma read_exact_same n s s' : same_source s s' ->
  (exists d t t', read_exact n s = Ok (d, t) /\ read_exact n s' = Ok (d, t') /\ same_source t t') \/
  (exists e, read_exact n s = Err e /\ read_exact n s' = Err e).
Proof.
  intros [F E]. destruct (le_lt_dec n (length (flat s))) as [L|L].
  - left. destruct (read_exact_enough s n L) as (t & H & Ft & Et).
    pose proof L as L'. rewrite F in L'. destruct (read_exact_enough s' n L') as (t' & H' & Ft' & Et').
    exists (firstn n (flat s)), t, t'. split; [exact H|]. split; [rewrite F; exact H'|]. split; congruence.
  - right. exists (if ends_in_error s then EIo else EUnexpectedEof). split; [apply read_exact_short, L|].
    rewrite E. apply read_exact_short. rewrite <- F. exact L.
Qed.

Lemma read_header_same s s' : same_source s s' ->
  (exists h n t t', read_header s = Ok (h, n, t) /\ read_header s' = Ok (h, n, t') /\ same_source t t') \/
  (exists e, read_header s = Err e /\ read_header s' = Err e) \/
  (read_header s = Panic /\ read_header s' = Panic).
Proof.
  intros H. unfold read_header.
  destruct (read_exact_same PREHEADER_LEN s s' H) as [(d & t & t' & -> & -> & Ht)|(e & -> & ->)]; cbn [bind]; [|eauto].
  destruct (ensure (bytes_eqb (firstn 4 d) FILE_SIGNATURE) _) as [[]|e|]; cbn [bind]; eauto.
  set (hl := le_value (skipn 4 d)).
  destruct (ensure (0 <? hl)%N _) as [[]|e|]; cbn [bind]; eauto.
  destruct (ensure (hl <=? MAX_HEADER_LEN)%N _) as [[]|e|]; cbn [bind]; eauto.
  destruct (assert _) as [[]|e|]; cbn [bind]; eauto.
  destruct (read_exact_same (N.to_nat (hl + padding_len hl FILE_ALIGNMENT)) t t' Ht) as [(b & u & u' & -> & -> & Hu)|(e & -> & ->)];
    cbn [bind]; [|eauto].
  destruct (ensure _ _) as [[]|e|]; cbn [bind]; eauto.
  left. eexists _, _, u, u'. split; [reflexivity|]. split; [reflexivity|exact Hu].
Qed.

Lemma convert_seq_first_failure conv : forall cs i, snd (convert_seq conv i cs) = true <-> first_failure conv i cs = None.
Proof.
  induction cs as [|[c l] cs IH]; intros i; cbn [convert_seq first_failure]; [tauto|].
  destruct (conv c l (wrap64 (N.of_nat i))) as [b| |]; cbn [snd]; try (split; discriminate).
  specialize (IH (S i)). destruct (convert_seq conv (S i) cs) as [bs ok]. exact IH.
Qed.

Lemma same_result_eq r r' : r = r' -> same_result r r'.
Proof. intros ->. split; tauto. Qed.

Lemma convert_stream_same p src src' w r w1 r' w1' : pipe_ok p -> same_source src src' ->
  convert_stream p src w r w1 -> convert_stream p src' w r' w1' ->
  w_out w1 = w_out w1' /\ same_result r r' /\ (ends_in_error src = false -> roomy w -> r = r').
Proof.
  intros Hok [F E] H H'.
  destruct (convert_stream_spec p Hok _ _ _ _ H) as (O & S & P & _).
  destruct (convert_stream_spec p Hok _ _ _ _ H') as (O' & S' & P' & _).
  assert (IC : forall n, input_chunks n src = input_chunks n src') by (intros n; unfold input_chunks; now rewrite F, E).
  assert (SC : seq_converted (p_conv p) (input_buffer_size p) src = seq_converted (p_conv p) (input_buffer_size p) src')
    by (unfold seq_converted; now rewrite IC).
  assert (SS : seq_success (p_conv p) (input_buffer_size p) src w <-> seq_success (p_conv p) (input_buffer_size p) src' w).
  { unfold seq_success, seq_input_ok. rewrite SC, E, IC. tauto. }
  split; [rewrite O, O'; unfold seq_out; now rewrite SC|]. split; [split; tauto|].
  intros En [Wr Wf].
  assert (Rm : room_for w (length (concat (seq_converted (p_conv p) (input_buffer_size p) src)))) by (unfold room_for; rewrite Wr; exact Logic.I).
  destruct r as [[]|e|]; [symmetry; apply S', SS, S; reflexivity| |now destruct P].
  destruct r' as [[]|e'|]; [exfalso; assert (X : Err e = Ok tt :> outcome err unit) by (apply S, SS, S'; reflexivity); discriminate X| |now destruct P'].
  destruct H as (s & Hs & Hm & _). destruct H' as (s' & Hs' & Hm' & _).
  assert (A : forall x, s_mn s = MRet (Err x) ->
    first_failure (p_conv p) 0 (input_chunks (input_buffer_size p) src) = Some (Err x) \/
    (x = EThreadPanic /\ first_failure (p_conv p) 0 (input_chunks (input_buffer_size p) src) = Some Panic)).
  { intros x Hx. destruct (error_origin p src w Hok s x Hs Hx) as [[_ B]|[B|[B|[_ B]]]]; auto; [congruence|]. exfalso. apply B. auto. }
  assert (A' : forall x, s_mn s' = MRet (Err x) ->
    first_failure (p_conv p) 0 (input_chunks (input_buffer_size p) src) = Some (Err x) \/
    (x = EThreadPanic /\ first_failure (p_conv p) 0 (input_chunks (input_buffer_size p) src) = Some Panic)).
  { intros x Hx. rewrite IC. destruct (error_origin p src' w Hok s' x Hs' Hx) as [[_ B]|[B|[B|[_ B]]]]; auto; [congruence|].
    exfalso. apply B. rewrite <- SC. auto. }
  destruct (A _ Hm) as [B|[-> B]], (A' _ Hm') as [B'|[-> B']]; congruence.
Qed.

Lemma write_all_roomy w d w' r : roomy w -> write_all w d = (r, w') -> roomy w'.
Proof. intros [R F] H. unfold write_all in H. rewrite R in H. injection H as <- <-. split; [reflexivity|exact F]. Qed.
Lemma write_header_roomy w h w' r : roomy w -> write_header w h = (r, w') -> roomy w'.
Proof.
  intros R. unfold write_header. destruct (negb _); [now intros [= <- <-]|].
  destruct (write_all w _) as [[]w1] eqn:E1; pose proof (write_all_roomy _ _ _ _ R E1) as R1; [|now intros [= <- <-]..].
  destruct (write_all w1 h) as [[]w2] eqn:E2; pose proof (write_all_roomy _ _ _ _ R1 E2) as R2; [|now intros [= <- <-]..].
  destruct (_ <? _)%N; [apply write_all_roomy, R2|now intros [= <- <-]].
Qed.

Lemma one_chunk_split n d : 1 <= n -> length d <= n -> chunks n d = [d].
Proof.
  intros Hn H. apply (split_unique n d); [lia|apply chunks_split; lia|].
  exists [], d. split; [reflexivity|]. split; [reflexivity|]. split; [constructor|]. split; [assumption|congruence].
Qed.

Section WithLib.
Variable lib : crypto_lib.
Hypothesis Hlib : lib_ok lib.

Lemma decrypt_same D src src' w r w1 r' w1' : same_source src src' ->
  decrypt_stream lib D src w r w1 -> decrypt_stream lib D src' w r' w1' ->
  w_out w1 = w_out w1' /\ same_result r r' /\ (ends_in_error src = false -> roomy w -> r = r').
Proof.
  intros Hs. unfold decrypt_stream.
  destruct (read_header_same src src' Hs) as [(h & n & t & t' & E & E' & Ht)|[(e & -> & ->)|[-> ->]]].
  - rewrite E, E'. destruct (read_header_sound _ _ _ _ E) as (_ & _ & _ & Et).
    destruct (decrypt_header lib h D) as [[cod chunk]|e|] eqn:Ed.
    + intros H H'. rewrite <- Et. exact (convert_stream_same _ _ _ _ _ _ _ _ (dec_codec_ok lib Hlib _ _ _ _ Ed) Ht H H').
    + intros [-> ->] [-> ->]. auto using same_result_eq.
    + intros [-> ->] [-> ->]. auto using same_result_eq.
  - intros [-> ->] [-> ->]. auto using same_result_eq.
  - intros [-> ->] [-> ->]. auto using same_result_eq.
Qed.

Lemma conversion_same d er src src' w r w1 r' w1' : random_ok er -> same_source src src' ->
  conversion lib d er src w r w1 -> conversion lib d er src' w r' w1' ->
  w_out w1 = w_out w1' /\ same_result r r' /\ (ends_in_error src = false -> roomy w -> r = r').
Proof.
  intros Hr Hs H H'. unfold conversion in *. destruct d as [c fast|D]; [|eapply decrypt_same; eassumption].
  destruct c as [| | | |subs n t]; try (destruct H as [-> ->], H' as [-> ->]; now auto using same_result_eq).
  unfold encrypt_stream in *.
  destruct (encrypt_header lib _ er) as [[[ser cod] chunk]|e|] eqn:He;
    try (destruct H as [-> ->], H' as [-> ->]; now auto using same_result_eq).
  destruct (write_header w ser) as [[[]|e|] w0] eqn:Ew;
    try (destruct H as [-> ->], H' as [-> ->]; now auto using same_result_eq).
  pose proof (c_pos _ _ _ _ _ _ Hr He) as P. pose proof (c_64 _ _ _ _ _ _ Hr He) as Q.
  destruct (cod_parts _ _ _ _ _ _ Hlib He) as (Hok & Hen & _).
  assert (Hp : pipe_ok (codec_pipe cod (N.to_nat chunk))) by (apply enc_pipe_ok; assumption).
  destruct (convert_stream_same _ _ _ _ _ _ _ _ Hp Hs H H') as (A & B & C).
  split; [exact A|]. split; [exact B|]. intros En Sp. apply C; [exact En|]. eapply write_header_roomy; eassumption.
Qed.

(** A successful conversion has written everything. *)
Lemma convert_stream_all p src w w1 : pipe_ok p -> convert_stream p src w (Ok tt) w1 ->
  w_out w1 = w_out w ++ concat (seq_converted (p_conv p) (input_buffer_size p) src).
Proof.
  intros Hok H. destruct (convert_stream_spec p Hok _ _ _ _ H) as (O & S & _). rewrite O. unfold seq_out. f_equal.
  destruct (proj1 S eq_refl) as (_ & R & _). unfold taken. unfold room_for in R. destruct (w_room w) as [m|]; [|reflexivity].
  apply firstn_all2. exact R.
Qed.

Lemma one_content D D' b c c' :
  is_conversion lib (DoDecrypt D) b c -> is_conversion lib (DoDecrypt D') b c' -> c = c' \/ opens_under_two_keys lib b.
Proof.
  intros (er & src & room & fl & snk & _ & En & Fl & H & ->) (er' & src' & room' & fl' & snk' & _ & En' & Fl' & H' & ->).
  assert (Hs : same_source src src') by (split; congruence).
  unfold conversion, decrypt_stream in H, H'.
  destruct (read_header_same src src' Hs) as [(h & n & t & t' & E & E' & [Ft Et])|[(e & E & E')|[E E']]]; rewrite E in H; rewrite E' in H';
    [|destruct H; discriminate..].
  destruct (decrypt_header lib h D) as [[cod chunk]|e|] eqn:Ed; [|destruct H; discriminate..].
  destruct (decrypt_header lib h D') as [[cod' chunk']|e|] eqn:Ed'; [|destruct H'; discriminate..].
  pose proof (convert_stream_all _ _ _ _ (dec_codec_ok lib Hlib _ _ _ _ Ed) H) as O.
  pose proof (convert_stream_all _ _ _ _ (dec_codec_ok lib Hlib _ _ _ _ Ed') H') as O'.
  destruct (accepted_header _ _ _ _ _ Ed) as (hd & k & ct & tag & p & A1 & A2 & A3 & A4 & A5 & A6 & A7 & A8 & A9 & A10 & A11 & A12).
  destruct (accepted_header _ _ _ _ _ Ed') as (hd' & k' & ct' & tag' & p' & B1 & B2 & B3 & B4 & B5 & B6 & B7 & B8 & B9 & B10 & B11 & B12).
  assert (hd' = hd) as -> by congruence. assert (Ecs : co_cs cod' = co_cs cod) by congruence. rewrite Ecs in *.
  assert (ct' = ct /\ tag' = tag) as [-> ->].
  { assert (L : length ct' = length ct).
    { assert (X : length (ct ++ tag) = length (ct' ++ tag')) by congruence. rewrite !app_length in X. lia. }
    assert (X : ct' ++ tag' = ct ++ tag) by congruence. clear - L X. revert ct L X.
    induction ct' as [|x l IH]; intros [|y ct] L X; try discriminate; [split; [reflexivity|exact X]|].
    injection X as -> X. injection L as L. destruct (IH ct L X) as [-> ->]. auto. }
  destruct (list_eq_dec byte_eq_dec (co_key cod) (co_key cod')) as [K|K].
  - left. assert (p' = p) as -> by congruence. assert (chunk' = chunk) as -> by congruence.
    assert (cod' = cod) as ->.
    { destruct cod, cod'. cbn in *. congruence. }
    rewrite O, O'. cbn [w_out]. unfold seq_converted, input_chunks. now rewrite Ft, Et.
  - right. destruct (read_header_sound _ _ _ _ E) as (L1 & F1 & _ & _).
    exists h, (frame_of h), (flat t), hd, (co_cs cod), ct, tag, (co_key cod), (co_key cod').
    split; [congruence|]. split; [apply frame_spec; [unfold MAX_HEADER_LEN, two32 in *; lia|reflexivity]|].
    split; [exact A1|]. split; [exact A3|]. split; [exact A7|]. split; [exact A8|]. split; [exact K|]. split; [exact A6|].
    split; [exact B6|]. split; congruence.
Qed.

(** A file with one chunk. *)
Lemma one_chunk_decrypts ser D cod chunk body m :
  (1 <= lenN ser <= MAX_HEADER_LEN)%N -> decrypt_header lib ser D = Ok (cod, chunk) ->
  length body <= N.to_nat chunk -> convert_chunk cod body true 0%N = Ok m ->
  is_conversion lib (DoDecrypt D) (frame_of ser ++ body) m.
Proof.
  intros Hl Hd Hb Hm. set (src := [RData (frame_of ser ++ body)]).
  assert (Hne : frame_of ser ++ body <> []) by (unfold frame_of; discriminate).
  assert (Fs : flat src = frame_of ser ++ body).
  { unfold src. cbn [flat]. destruct (frame_of ser ++ body); [now destruct Hne|apply app_nil_r]. }
  assert (Es : ends_in_error src = false).
  { unfold src. cbn [ends_in_error]. destruct (frame_of ser ++ body); reflexivity. }
  destruct (read_header_complete src ser body Hl Fs) as (t & Ht & Ft & Et).
  pose proof (dec_codec_ok lib Hlib _ _ _ _ Hd) as Hp.
  destruct (convert_stream_exists _ Hp t (mkSink [] None true false)) as (r & w1 & H).
  destruct (convert_stream_spec _ Hp _ _ _ _ H) as (O & S & _).
  destruct (decrypt_header_inv _ _ _ _ _ Hd) as (_ & _ & _ & _ & _ & _ & Hck & _ & Hen).
  assert (IC : input_chunks (input_buffer_size (codec_pipe cod (N.to_nat chunk))) t = [(body, true)]).
  { unfold input_chunks. rewrite Et, Es, Ft. rewrite (one_chunk_split (input_buffer_size (codec_pipe cod (N.to_nat chunk))) body);
      [reflexivity|unfold input_buffer_size; cbn [codec_pipe p_chunk_size p_in_asize]; unfold input_asize; rewrite Hen; unfold AEAD_MAC_LEN; lia..]. }
  assert (SQ : convert_seq (convert_chunk cod) 0 [(body, true)] = ([m], true)).
  { cbn [convert_seq]. change (wrap64 (N.of_nat 0)) with 0%N. rewrite Hm. reflexivity. }
  assert (r = Ok tt) as ->.
  { apply S. unfold seq_success, seq_input_ok. rewrite Et, Es, IC. cbn [p_conv codec_pipe]. rewrite SQ. cbn. auto. }
  exists (mkRandom 0 (repeat x00 32) [] (fun _ => x00)), src, None, true, w1.
  split; [split; reflexivity|]. split; [exact Es|]. split; [exact Fs|]. split.
  - unfold conversion, decrypt_stream. rewrite Ht, Hd. exact H.
  - rewrite O. unfold seq_out, seq_converted. rewrite IC. cbn [p_conv codec_pipe]. rewrite SQ. cbn. now rewrite app_nil_r.
Qed.
End WithLib.

(** Proofs about what the progress display is told, continued: whole conversions, and the lines that come of it. *)
From Coq.Strings Require Import Byte String.
From Coq Require Import List NArith ZArith Bool Lia PeanoNat Sorting.Sorted.
From Verif Require Import Base BaseFacts Shamir Errors Io HeaderIo HeaderIoSpec HeaderIoProofs Crypto HeaderCrypto HeaderCryptoProofs CredSpec StreamCrypto Pipeline PipelineSpec StreamSpec FileCrypto ChunkProofs PipelineProofs PipelineProofs2 PipelineProofs3 PropPipeline FileProofs StreamProofs StreamProofs3 CliErrors Text Paths CliCreds Cli Fs Commands ConvProofs Progress ProgressSpec ProgressProofs LayoutProofs2 Meter MeterProofs.
Import ListNotations.
Local Open Scope N_scope.

(** ** Conversions *)

Lemma so_far_end p src w r w' : convert_stream p src w r w' <-> exists counts, convert_stream_so_far p src w counts (Some r) w'.
Proof.
  split.
  - intros (s & S & M & K). exists (s_progress s), s. auto.
  - intros (counts & s & S & K & _ & M). exists s. auto.
Qed.

(** The conversion of Commands is this one. *)
Lemma conversion_counts lib d er src w r w' : conversion lib d er src w r w' <-> exists counts, conversion_so_far lib d er src w counts (Some r) w'.
Proof.
  assert (A : forall (x : outcome err unit) (v : sink), (r = x /\ w' = v) <-> exists counts : list N, counts = [] /\ Some r = Some x /\ w' = v).
  { intros x v. split; [intros [-> ->]; eauto|]. intros (counts & _ & E & ->). injection E as ->. auto. }
  destruct d as [[| | | |subs n t] fast|cs]; cbn [conversion conversion_so_far]; try apply A.
  - unfold encrypt_stream, encrypt_so_far. destruct (encrypt_header _ _ er) as [[[ser cod] chunk]|e|]; try apply A.
    destruct (write_header w ser) as [[u|e|] w1]; try apply A. apply so_far_end.
  - unfold decrypt_stream, decrypt_so_far. destruct (read_header src) as [[[h k] src']|e|]; try apply A.
    destruct (decrypt_header lib h cs) as [[cod chunk]|e|].
    + rewrite so_far_end. split; [intros (c & H); exists (k :: c), c; auto|intros (? & c & _ & H); exists c; exact H].
    + split; [intros [-> ->]; eauto|]. intros (counts & _ & E & ->). injection E as ->. auto.
    + split; [intros [-> ->]; eauto|]. intros (counts & _ & E & ->). injection E as ->. auto.
Qed.

Section WithLib.
Variable lib : crypto_lib.
Hypothesis Hl : lib_ok lib.

(** Never more than there is, all of it in the end. *)
Lemma pipe_counts p src w counts r w' : pipe_ok p -> convert_stream_so_far p src w counts r w' ->
  sumN counts <= lenN (flat src) /\ (r = Some (Ok tt) -> sumN counts = lenN (flat src) /\ counts <> []) /\
  sumN counts + N.of_nat (p_out_asize p) * lenN counts + lenN (w_out w) <= lenN (w_out w') + N.of_nat (p_in_asize p) * lenN counts.
Proof.
  intros Hok (s & S & <- & -> & M). split; [exact (C27_progress_never_exceeds_the_input p src w s Hok S)|]. split.
  - intros ->. split; [exact (C27_progress_sums_to_the_input p src w s Hok S M)|].
    destruct (inv_reach p src w Hok s S) as (nr & nc & ns & nw & nd & nm & out & I).
    destruct (inv_final p src w (Hn p Hok) _ _ _ _ _ _ _ _ _ I M) as (_ & H2 & _ & _ & H5). specialize (H5 eq_refl).
    destruct (proj1 H2 eq_refl) as [H _]. unfold seq_input_ok in H. apply andb_prop in H as [H _]. apply negb_true_iff in H.
    destruct (i_mn _ _ _ _ _ _ _ _ _ _ _ I) as (Hp & _ & _). rewrite M in Hp. cbn [pend] in Hp. rewrite app_nil_r in Hp. rewrite Hp, H5.
    unfold E, input_chunks. rewrite H. pose proof (chunks_length_pos (n p) (flat src) (Hn p Hok)) as L. intros X.
    apply (f_equal (@length N)) in X. rewrite map_length, seq_length in X. unfold flag_last in X.
    destruct (chunks (n p) (flat src)) as [|c [|c' cs]]; [cbn in L; lia|discriminate X|discriminate X].
  - exact (reported_written p src w Hok s S).
Qed.

Lemma write_header_grows w h r w1 : write_header w h = (r, w1) -> lenN (w_out w) <= lenN (w_out w1).
Proof.
  assert (A : forall w d r w', write_all w d = (r, w') -> lenN (w_out w) <= lenN (w_out w')).
  { clear. intros w d r w'. unfold write_all. destruct (w_room w); [destruct (Nat.leb _ _)|]; intros H; injection H as <- <-; cbn [w_out]; unfold lenN; rewrite app_length; lia. }
  unfold write_header. destruct (negb _); [intros H; injection H as <- <-; lia|]. destruct (write_all w _) as [[u|e|] w2] eqn:E1; apply A in E1; [|intros H; injection H as <- <-; lia..].
  destruct (write_all w2 h) as [[v|e|] w3] eqn:E2; apply A in E2; [|intros H; injection H as <- <-; lia..].
  destruct (0 <? _); intros H; [apply A in H; lia|injection H as <- <-; lia].
Qed.

Lemma counts_spec d er src w counts r w' : random_ok er -> conversion_so_far lib d er src w counts r w' ->
  sumN counts <= lenN (flat src) /\ (r = Some (Ok tt) -> sumN counts = lenN (flat src) /\ counts <> []) /\
  match d with
  | DoEncrypt _ _ => sumN counts + lenN (w_out w) <= lenN (w_out w')
  | DoDecrypt _ => counts = [] /\ w_out w' = w_out w \/ exists h rest, counts = h :: rest /\ sumN rest + lenN (w_out w) <= lenN (w_out w') + 16 * lenN rest
  end.
Proof.
  intros Hr H. destruct d as [c fast|cs]; cbn [conversion_so_far] in H.
  - assert (Z : forall x : outcome err unit, x <> Ok tt -> counts = [] -> r = Some x -> lenN (w_out w) <= lenN (w_out w') ->
      sumN counts <= lenN (flat src) /\ (r = Some (Ok tt) -> sumN counts = lenN (flat src) /\ counts <> []) /\ sumN counts + lenN (w_out w) <= lenN (w_out w')).
    { intros x Hx -> -> G. cbn [sumN fold_right]. split; [lia|]. split; [congruence|lia]. }
    destruct c as [| | | |subs n t]; try (destruct H as (-> & -> & ->); apply (Z Panic); [discriminate|reflexivity|reflexivity|lia]).
    unfold encrypt_so_far in H. destruct (encrypt_header lib _ er) as [[[ser cod] chunk]|e|] eqn:He; try (destruct H as (-> & -> & ->); eapply Z; [|reflexivity..|lia]; discriminate).
    destruct (write_header w ser) as [[u|e|] w1] eqn:Ew; apply write_header_grows in Ew; try (destruct H as (-> & -> & ->); eapply Z; [|reflexivity..|lia]; discriminate).
    pose proof (c_pos _ _ _ _ _ _ Hr He) as P. pose proof (c_64 _ _ _ _ _ _ Hr He) as Q. destruct (cod_parts _ _ _ _ _ _ Hl He) as (Hok & Hen & _).
    destruct (pipe_counts _ _ _ _ _ _ (enc_pipe_ok cod Hok _ P Q) H) as (A & B & C). split; [exact A|]. split; [exact B|].
    cbn [codec_pipe p_in_asize p_out_asize] in C. unfold input_asize, output_asize in C. rewrite Hen in C. lia.
  - unfold decrypt_so_far in H. destruct (read_header src) as [[[h k] src']|e|] eqn:Eh.
    + destruct (read_header_sound _ _ _ _ Eh) as (_ & F & -> & _). assert (LF : lenN (flat src) = lenN (frame_of h) + lenN (flat src')) by (rewrite F; apply lenN_app).
      destruct (decrypt_header lib h cs) as [[cod chunk]|e|] eqn:Ed.
      * destruct H as (counts' & -> & H). destruct (pipe_counts _ _ _ _ _ _ (dec_codec_ok lib Hl _ _ _ _ Ed) H) as (A & B & C).
        change (sumN (lenN (frame_of h) :: counts')) with (lenN (frame_of h) + sumN counts'). split; [lia|]. split; [intros X; destruct (B X) as [B1 _]; split; [lia|discriminate]|].
        right. exists (lenN (frame_of h)), counts'. split; [reflexivity|]. destruct (decrypt_header_inv _ _ _ _ _ Ed) as (? & ? & _ & _ & _ & _ & _ & _ & He).
        cbn [codec_pipe p_in_asize p_out_asize] in C. unfold input_asize, output_asize in C. rewrite He in C. change (N.of_nat AEAD_MAC_LEN) with 16 in C. lia.
      * destruct H as (-> & -> & ->). cbn [sumN fold_right]. split; [lia|]. split; [congruence|]. right. exists (lenN (frame_of h)), []. split; [reflexivity|]. cbn. lia.
      * destruct H as (-> & -> & ->). cbn [sumN fold_right]. split; [lia|]. split; [congruence|]. right. exists (lenN (frame_of h)), []. split; [reflexivity|]. cbn. lia.
    + destruct H as (-> & -> & ->). cbn [sumN fold_right]. split; [lia|]. split; [congruence|]. left. auto.
    + destruct H as (-> & -> & ->). cbn [sumN fold_right]. split; [lia|]. split; [congruence|]. left. auto.
Qed.
End WithLib.

(** ** Lines *)

Lemma sorted_snoc l x : StronglySorted N.le l -> Forall (fun y => y <= x) l -> StronglySorted N.le (l ++ [x]).
Proof.
  induction 1 as [|y l S IH F]; intros B; [repeat constructor|]. inversion B as [|? ? By Bl]; subst. cbn [app]. constructor; [apply IH, Bl|].
  apply Forall_app. split; [exact F|repeat constructor; exact By].
Qed.

Definition clamp (size : option N) (n : N) : N := match size with Some f => N.min f n | None => n end.
Record on_course (size : option N) (p : printer) : Prop := {
  oc_size : p_filesize p = size;
  oc_last : exists t r, rev (p_stamps p) = (t, p_written p) :: r;
  oc_lines : StronglySorted N.le (map l_bytes (p_lines p)) /\ Forall (fun l => l_bytes l <= clamp size (p_written p)) (p_lines p)
}.

Lemma line_course size p fin p' : on_course size p -> print_progress_line p fin = Ok p' ->
  on_course size p' /\ p_written p' = p_written p /\ p_once p' = true /\ p_last p' = p_last p /\ exists l, p_lines p' = p_lines p ++ [l] /\ l_bytes l = clamp size (p_written p) /\ l_final l = fin.
Proof.
  intros [Gs (t & r & Gl) [Gm Gb]] H. unfold print_progress_line in H. rewrite Gl in H. destruct (p_stamps p) as [|[t0 b0] st] eqn:Es; [discriminate Gl|].
  apply bind_ok in H as (delta & _ & H). apply bind_ok in H as (eta & _ & H). injection H as <-. cbn [p_written p_once p_lines p_filesize p_stamps].
  set (l := mkLine _ _ _ fin). assert (Bl : l_bytes l = clamp size (p_written p)).
  { subst l. cbn [l_bytes]. rewrite Gs. destruct size as [f|]; [|reflexivity]. cbn [clamp]. destruct (N.ltb_spec f (p_written p)); lia. }
  split; [|split; [reflexivity|split; [reflexivity|split; [reflexivity|exists l; auto]]]].
  constructor; cbn [p_filesize p_stamps p_lines p_written].
  - exact Gs.
  - exists t, r. exact Gl.
  - split.
    + rewrite map_app. cbn [map]. apply sorted_snoc; [exact Gm|]. rewrite Bl. rewrite Forall_map. exact Gb.
    + apply Forall_app. split; [exact Gb|]. constructor; [rewrite Bl; lia|constructor].
Qed.

Lemma print_course size p now n p' : on_course size p -> p_written p + n < two64 -> print_progress p now n = Ok p' ->
  on_course size p' /\ p_written p' = p_written p + n /\ (p_last p = None \/ p_once p = true -> p_once p' = true /\ p_last p' <> None).
Proof.
  intros [Gs (t & r & Gl) [Gm Gb]] W H. unfold print_progress in H. rewrite ProgressProofs.wrap64_small in H by exact W.
  apply bind_ok in H as (el & _ & H).
  assert (CL : clamp size (p_written p) <= clamp size (p_written p + n)) by (destruct size; cbn [clamp]; lia).
  assert (Gb' : Forall (fun l => l_bytes l <= clamp size (p_written p + n)) (p_lines p)) by (eapply Forall_impl; [|exact Gb]; cbn beta; intros l Hl; lia).
  destruct (match p_last p with Some q => _ | None => false end) eqn:C.
  - rewrite Gl in H. injection H as <-. split; [|split; [reflexivity|]].
    + constructor; cbn [p_filesize p_stamps p_lines p_written]; [exact Gs| |split; assumption]. exists now, (rev (rev r)). rewrite rev_app_distr. reflexivity.
    + cbn [p_once p_last]. intros [X|X]; [rewrite X in C; discriminate C|]. split; [exact X|]. intros Y. rewrite Y in C. discriminate C.
  - apply (line_course size) in H as (G & Ew & Eo & El & l & _).
    + split; [exact G|]. split; [exact Ew|]. intros _. split; [exact Eo|]. rewrite El. discriminate.
    + constructor; cbn [p_filesize p_stamps p_lines p_written]; [exact Gs| |split; assumption].
      cbv zeta. exists now. destruct (KEEP_STAMPS_COUNT <? _); [|eexists; rewrite rev_app_distr; reflexivity].
      destruct (p_stamps p) as [|x st]; [discriminate Gl|]. cbn [app tl]. eexists. rewrite rev_app_distr. reflexivity.
Qed.

Lemma notify_course size events : forall p p', on_course size p -> p_written p + sumN (map snd events) < two64 -> notify_all p events = Ok p' ->
  on_course size p' /\ p_written p' = p_written p + sumN (map snd events) /\ (p_last p = None \/ p_once p = true -> events <> [] \/ p_once p = true -> p_once p' = true).
Proof.
  induction events as [|[now n] events IH]; intros p p' G W H; cbn [notify_all map snd] in *.
  - injection H as <-. cbn. split; [exact G|]. split; [lia|]. intros _ [X|X]; [contradiction X; reflexivity|exact X].
  - change (sumN (n :: map snd events)) with (n + sumN (map snd events)) in *. apply bind_ok in H as (q & Hq & H).
    destruct (print_course size p now n q G ltac:(lia) Hq) as (Gq & Wq & Oq). destruct (IH q p' Gq ltac:(lia) H) as (G' & W' & O').
    split; [exact G'|]. split; [lia|]. intros X _. destruct (Oq X) as [Y _]. apply O'; right; exact Y.
Qed.

(** The lines of a report never go back, and the last one shows all that was reported. *)
Lemma report_course start size events lines : sumN (map snd events) < two64 -> report start size events = Ok lines ->
  StronglySorted N.le (map l_bytes lines) /\ Forall (fun l => l_bytes l <= clamp size (sumN (map snd events))) lines /\
  (events <> [] -> exists ls l, lines = ls ++ [l] /\ l_final l = true /\ l_bytes l = clamp size (sumN (map snd events))).
Proof.
  intros W H. unfold report in H. apply bind_ok in H as (p & Hp & H). apply bind_ok in H as (q & Hq & H). injection H as <-.
  assert (G0 : on_course size (set_filesize (new_printer start) size)).
  { constructor; cbn [set_filesize new_printer p_filesize p_stamps p_lines p_written map]; [reflexivity|exists start, []; reflexivity|split; constructor]. }
  destruct (notify_course size events _ p G0 W Hp) as (G & Ew & Eo). change (p_written (set_filesize (new_printer start) size)) with 0 in Ew. rewrite N.add_0_l in Ew.
  unfold drop_printer in Hq. destruct (p_once p) eqn:O.
  - destruct (line_course size p true q G Hq) as (Gq & Wq & _ & _ & l & Hl & Bl & Fl). destruct (oc_lines _ _ Gq) as [S B]. split; [exact S|].
    rewrite Wq, Ew in B. split; [exact B|]. intros _. exists (p_lines p), l. rewrite Ew in Bl. auto.
  - injection Hq as <-. destruct (oc_lines _ _ G) as [S B]. rewrite Ew in B. split; [exact S|]. split; [exact B|].
    intros X. specialize (Eo (or_introl eq_refl) (or_introl X)). congruence.
Qed.

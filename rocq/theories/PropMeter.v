(** C83: the progress display shows how much of this file has been written. *)
From Coq.Strings Require Import Byte String.
From Coq Require Import List NArith ZArith Bool Lia Sorting.Sorted.
From Verif Require Import Base BaseFacts Shamir Errors Io HeaderIo HeaderIoSpec HeaderIoProofs Crypto HeaderCrypto CredSpec ToyCrypto Pipeline StreamSpec FileCrypto FileProofs PropHeader PropFile CliErrors Text Util LayoutSpec Layout LayoutProofs LayoutProofs2 Ui Paths CliCreds Cli Fs Commands Progress ProgressSpec PropProgress Meter MeterProofs MeterProofs2.
Import ListNotations.
Local Open Scope N_scope.

(** At every moment of every conversion, the bytes that have been reported have been read, and what they were converted
    to has been written: at least as many bytes when encrypting; when decrypting, after the header, all but 16 bytes for
    each report. *)
Theorem C83_the_display_is_not_ahead : forall lib d er src w counts r w',
  lib_ok lib -> random_ok er -> conversion_so_far lib d er src w counts r w' ->
  sumN counts <= lenN (flat src) /\
  match d with
  | DoEncrypt _ _ => sumN counts + lenN (w_out w) <= lenN (w_out w')
  | DoDecrypt _ => counts = [] /\ w_out w' = w_out w \/
      exists header rest, counts = header :: rest /\ sumN rest + lenN (w_out w) <= lenN (w_out w') + 16 * lenN rest
  end.
Proof. intros lib d er src w counts r w' Hl Hr H. destruct (counts_spec lib Hl d er src w counts r w' Hr H) as (A & _ & C). exact (conj A C). Qed.
Print Assumptions C83_the_display_is_not_ahead.

(** These are the conversions of the program. *)
Theorem C83_conversions : forall lib d er src w r w',
  conversion lib d er src w r w' <-> exists counts, conversion_so_far lib d er src w counts (Some r) w'.
Proof. exact conversion_counts. Qed.
Print Assumptions C83_conversions.

Lemma whole_percent up n : 0 < n -> percent_text up n n = lit "100.0".
Proof.
  intros P. unfold percent_text, percent_tenths, clamped_ratio. rewrite N.max_l by lia. rewrite N.leb_refl. vm_compute. 
  reflexivity.
Qed.

Lemma map_snd_combine (times : list N) : forall counts : list N, length times = length counts -> map snd (combine times counts) = counts.
Proof. induction times as [|t times IH]; intros [|c counts] L; try discriminate L; [reflexivity|]. cbn. f_equal. apply IH. injection L as L. exact L. Qed.

(** The text of a line starts with the percentage. *)
Lemma line_starts {E} up w f s e t : @format_progress_line E up w f s e = Ok t ->
  exists rest, t = lit "   " ++ pad_left 5 (match f with Some f => percent_text up w f | None => lit "---" end) ++ lit " % " ++ rest.
Proof.
  unfold format_progress_line. intros H. apply bind_ok in H as (a & _ & H). apply bind_ok in H as (b & _ & H). injection H as <-. eexists. reflexivity.
Qed.

(** When a regular file has been converted, its size was announced; the lines never went back; and the last one, which
    stays on the screen, says that it was the whole file, with 100.0 %. *)
Theorem C83_success_shows_the_whole_file : forall (entry_of : names) link_len lib i p s ino n f wr d er src snk counts snk' size start times lines (up : N -> bool),
  lib_ok lib -> random_ok er ->
  (i = IFile p \/ i = IFileStream p) -> entry_of p = Some s -> f_entries f s = Some (EFile ino) -> f_nodes f ino = Some n -> n_regular n = true ->
  0 < lenN (n_content n) < two64 -> wr <> WriteNode ino ->
  input_size entry_of link_len i f size -> provides entry_of f (ReadNode ino) wr src ->
  conversion_so_far lib d er src snk counts (Some (Ok tt)) snk' -> display start size times counts lines ->
  size = Some (lenN (n_content n)) /\ StronglySorted N.le (map l_bytes lines) /\ Forall (fun l => l_bytes l <= lenN (n_content n)) lines /\
  exists ls l t rest, lines = ls ++ [l] /\ l_final l = true /\ l_bytes l = lenN (n_content n) /\
    @format_progress_line cerr up (l_bytes l) size (l_speed l) (l_eta l) = Ok t /\
    line_text (lenN (n_content n)) size (l_speed l) (l_eta l) t /\ t = lit "   100.0 % " ++ rest.
Proof.
  intros e ll lib i p s ino n f wr d er src snk counts snk' size start times lines up Hl Hr Hi He Hf Hn Hreg [P0 P1] Hw Hs Hp Hc [Len Hd].
  assert (Es : size = Some (lenN (n_content n))).
  { assert (M : metadata_len ll f s = Some (lenN (n_content n))) by (unfold metadata_len; rewrite Hf, Hn, Hreg; reflexivity).
    destruct Hi as [-> | ->]; destruct Hs as (s' & len & E1 & E2 & ->); rewrite He in E1; injection E1 as <-; rewrite M in E2; injection E2 as <-; [reflexivity|].
    destruct (N.ltb_spec 0 (lenN (n_content n))); [reflexivity|lia]. }
  assert (Ed : flat src = n_content n).
  { assert (X : ends_in_error src = false) by (apply (ConvProofs.conversion_reads_all lib Hl d er src snk snk' Hr); apply conversion_counts; exists counts; exact Hc).
    unfold provides in Hp. rewrite Hn in Hp. specialize (Hp Hreg Hw). rewrite X in Hp. exact Hp. }
  destruct (counts_spec lib Hl d er src snk counts _ snk' Hr Hc) as (_ & T & _). destruct (T eq_refl) as [T1 T2]. rewrite Ed in T1.
  pose proof (map_snd_combine times counts Len) as ES.
  assert (NE : combine times counts <> []) by (intros X; rewrite X in ES; cbn in ES; congruence).
  destruct (report_course start size (combine times counts) lines) as (A & B & C); [rewrite ES, T1; exact P1|exact Hd|].
  rewrite ES, T1 in B, C. rewrite Es in B, C. cbn [clamp] in B, C. rewrite N.min_id in B, C. specialize (C NE). split; [exact Es|]. split; [exact A|]. split; [exact B|].
  destruct C as (ls & l & -> & Fl & Bl).
  destruct (report_lines start size _ _ ltac:(rewrite Es; exact P1) Hd) as [X|(ls0 & l0 & _ & _ & _ & O)]; [destruct ls; discriminate X|].
  apply Forall_app in O as [_ O]. inversion O as [|? ? (O1 & O2 & O3 & O4) _].
  destruct (@format_line_ok cerr up (l_bytes l) size (l_speed l) (l_eta l) O1 O2 O3 O4) as (t & Et & Lt).
  destruct (line_starts up _ _ _ _ _ Et) as (rest & Er). exists ls, l, t, rest. rewrite Bl in *. split; [reflexivity|]. split; [exact Fl|]. split; [reflexivity|].
  split; [exact Et|]. split; [exact Lt|]. rewrite Er, Es, (whole_percent up _ P0). reflexivity.
Qed.
Print Assumptions C83_success_shows_the_whole_file.

(** If the size is not known, the last line shows how many bytes there were. *)
Theorem C83_success_shows_the_length_of_a_stream : forall (entry_of : names) link_len lib i f d er src snk counts snk' start times lines,
  lib_ok lib -> random_ok er -> lenN (flat src) < two64 ->
  input_size entry_of link_len i f None ->
  conversion_so_far lib d er src snk counts (Some (Ok tt)) snk' -> display start None times counts lines ->
  StronglySorted N.le (map l_bytes lines) /\ Forall (fun l => l_bytes l <= lenN (flat src)) lines /\
  exists ls l, lines = ls ++ [l] /\ l_final l = true /\ l_bytes l = lenN (flat src).
Proof.
  intros e ll lib i f d er src snk counts snk' start times lines Hl Hr P1 _ Hc [Len Hd].
  destruct (counts_spec lib Hl d er src snk counts _ snk' Hr Hc) as (_ & T & _). destruct (T eq_refl) as [T1 T2].
  pose proof (map_snd_combine times counts Len) as ES.
  assert (NE : combine times counts <> []) by (intros X; rewrite X in ES; cbn in ES; congruence).
  destruct (report_course start None (combine times counts) lines) as (A & B & C); [rewrite ES, T1; exact P1|exact Hd|].
  rewrite ES, T1 in B, C. cbn [clamp] in B, C. auto.
Qed.
Print Assumptions C83_success_shows_the_length_of_a_stream.

(** ** Cases *)

Lemma instant_report size counts : 1000 * sumN counts < 9223372036854775808 -> match size with Some f => f < 9223372036854775808 | None => True end ->
  exists lines, display 0 size (repeat 0 (length counts)) counts lines.
Proof.
  intros P Q. set (events := combine (repeat 0 (length counts)) counts).
  assert (T : forall counts a, Forall (fun x => fst x = 0 /\ snd x <= a + sumN counts) (totals a (combine (repeat 0 (length counts)) counts))).
  { clear. induction counts as [|c counts IH]; intros a; cbn [length repeat combine totals]; constructor.
    - change (sumN (c :: counts)) with (c + sumN counts). cbn [fst snd]. split; [reflexivity|lia].
    - eapply Forall_impl; [|apply IH]. change (sumN (c :: counts)) with (c + sumN counts). cbn beta. intros x [X1 X2]. split; [exact X1|lia]. }
  assert (F : Forall (fun x => fst x = 0 /\ snd x <= sumN counts) (points 0 events)) by (constructor; [split; [reflexivity|cbn [snd]; lia]|apply (T counts 0)]).
  assert (S : forall R : N * N -> N * N -> Prop, (forall x y, fst x = 0 -> fst y = 0 -> R x y) -> StronglySorted R (points 0 events)).
  { intros R HR. clear - F HR. revert F. generalize (points 0 events) as l. induction l as [|x l IH]; intros F; [constructor|]. inversion F as [|? ? [Fx _] Fl]; subst.
    constructor; [apply IH, Fl|]. eapply Forall_impl; [|exact Fl]. cbn beta. intros y [Fy _]. auto. }
  destruct (C44_progress_never_aborts_while_data_flows 0 size events) as (lines & H).
  - split; [|exact Q]. eapply Forall_impl; [|exact F]. cbn beta. intros x [X1 X2]. split; [lia|]. rewrite X1. reflexivity.
  - apply S. intros x y X Y. unfold clock_ok. lia.
  - right. apply S. intros x y X Y. left. rewrite X, Y. vm_compute. discriminate.
  - exists lines. split; [apply repeat_length|exact H].
Qed.

Definition ex_encrypt : direction_opts := DoEncrypt (Complex (eo_sub_creds ex_opts) (eo_num_shares ex_opts) (eo_threshold ex_opts)) (eo_fast ex_opts).
Lemma case_run src : ends_in_error src = false ->
  exists counts snk, conversion_so_far toy_lib ex_encrypt ex_random src ex_out counts (Some (Ok tt)) snk.
Proof.
  intros E. destruct (encrypt_stream_works toy_lib ex_opts ex_random ex_ser ex_codec 1044520 toy_lib_ok ex_random_ok ex_encrypts src ex_out) as [w' H]; [vm_compute; discriminate|exact E|reflexivity..|].
  destruct (proj1 (conversion_counts toy_lib ex_encrypt ex_random src ex_out (Ok tt) w') H) as (counts & C). exists counts, w'. exact C.
Qed.

(** Two names: a, a file, and b, a link to it. *)
Definition name_a : path := [Normal [97]].
Definition name_b : path := [Normal [98]].
Definition meter_names : names :=
  mkNames (fun p => match p with [Normal [97]] => Some 0 | [Normal [98]] => Some 1 | _ => None end) false false.
Definition meter_fs (b : bytes) : fs :=
  mkFs (fun s => if s =? 0 then Some (EFile 7) else if s =? 1 then Some (ELink (Some 0)) else None)
       (fun i => if i =? 7 then Some (mkNode true b 1) else None).

(** A conversion of [src] with a display that has the announced size. *)
Lemma case_shown src size : ends_in_error src = false -> 1000 * lenN (flat src) < 9223372036854775808 -> match size with Some f => f < 9223372036854775808 | None => True end ->
  exists counts snk times lines, conversion_so_far toy_lib ex_encrypt ex_random src ex_out counts (Some (Ok tt)) snk /\ display 0 size times counts lines /\
    exists ls l, lines = ls ++ [l] /\ l_final l = true /\ l_bytes l = clamp size (lenN (flat src)) /\
      forall up, exists t, @format_progress_line cerr up (l_bytes l) size (l_speed l) (l_eta l) = Ok t.
Proof.
  intros E P Q. destruct (case_run src E) as (counts & snk & H).
  destruct (counts_spec toy_lib toy_lib_ok _ _ _ _ _ _ _ ex_random_ok H) as (_ & T & _). destruct (T eq_refl) as [T1 T2].
  destruct (instant_report size counts) as (lines & D); [rewrite T1; exact P|exact Q|]. exists counts, snk, (repeat 0 (length counts)), lines.
  split; [exact H|]. split; [exact D|]. destruct D as [L D]. pose proof (map_snd_combine _ counts L) as ES.
  destruct (report_course _ _ _ _ ltac:(rewrite ES, T1; unfold two64; lia) D) as (_ & _ & C).
  rewrite ES, T1 in C. destruct C as (ls & l & -> & Fl & Bl); [intros X; rewrite X in ES; cbn in ES; apply T2; symmetry; exact ES|]. exists ls, l. split; [reflexivity|]. split; [exact Fl|]. split; [exact Bl|].
  intros up. destruct (report_lines 0 size _ _ ltac:(destruct size; [cbn; unfold two64; lia|exact I]) D) as [X|(ls0 & l0 & _ & _ & _ & O)]; [destruct ls; discriminate X|].
  apply Forall_app in O as [_ O]. inversion O as [|? ? (O1 & O2 & O3 & O4) _].
  destruct (@format_line_ok cerr up (l_bytes l) size (l_speed l) (l_eta l) O1 O2 O3 O4) as (t & Et & _). exists t. exact Et.
Qed.

(** rypt a: the file a has three bytes. *)
Example C83_case : exists counts snk times lines,
  conversion_so_far toy_lib ex_encrypt ex_random ex_data ex_out counts (Some (Ok tt)) snk /\
  display 0 (Some 3) times counts lines /\ input_size meter_names (fun _ => 1) (IFile name_a) (meter_fs [x61; x62; x63]) (Some 3) /\
  provides meter_names (meter_fs [x61; x62; x63]) (ReadNode 7) (WriteNode 8) ex_data.
Proof.
  destruct (case_shown ex_data (Some 3) eq_refl eq_refl eq_refl) as (counts & snk & times & lines & H & D & _). exists counts, snk, times, lines.
  split; [exact H|]. split; [exact D|]. split; [exists 0, 3; repeat split|]. intros _ _. reflexivity.
Qed.

(** After the conversion of an empty file the display says 0.0 %. *)
Theorem C83_whole_empty_files_refuted : exists (entry_of : names) link_len lib p s ino n f wr d er src snk counts snk' start times lines ls l,
  lib_ok lib /\ random_ok er /\ entry_of p = Some s /\ f_entries f s = Some (EFile ino) /\ f_nodes f ino = Some n /\ n_regular n = true /\ n_content n = [] /\
  wr <> WriteNode ino /\ input_size entry_of link_len (IFile p) f (Some 0) /\ provides entry_of f (ReadNode ino) wr src /\
  conversion_so_far lib d er src snk counts (Some (Ok tt)) snk' /\ display start (Some 0) times counts lines /\ lines = ls ++ [l] /\
  forall up, exists t rest, @format_progress_line cerr up (l_bytes l) (Some 0) (l_speed l) (l_eta l) = Ok t /\ t = lit "     0.0 % " ++ rest.
Proof.
  destruct (case_shown [] (Some 0) eq_refl eq_refl eq_refl) as (counts & snk & times & lines & H & D & ls & l & El & _ & Bl & F).
  exists meter_names, (fun _ => 1), toy_lib, name_a, 0, 7, (mkNode true [] 1), (meter_fs []), (WriteNode 8), ex_encrypt, ex_random, [], ex_out, counts, snk, 0, times, lines, ls, l.
  split; [exact toy_lib_ok|]. split; [exact ex_random_ok|]. do 5 (split; [reflexivity|]). split; [discriminate|]. split; [exists 0, 0; repeat split|]. split; [intros _ _; reflexivity|].
  split; [exact H|]. split; [exact D|]. split; [exact El|]. intros up. destruct (F up) as (t & Et). destruct (line_starts up _ _ _ _ _ Et) as (rest & Er). exists t, rest. split; [exact Et|]. rewrite Er, Bl. reflexivity.
Qed.
Print Assumptions C83_whole_empty_files_refuted.

(** For a link the size of the link is announced, not that of the file: of a file of three bytes the last line shows one
    byte (and 100.0 %). *)
Theorem C83_whole_files_through_links_refuted : exists (entry_of : names) link_len lib p w ino n wr d er src snk counts snk' size start times lines ls l,
  lib_ok lib /\ random_ok er /\ open_read entry_of p w (Ok (ReadNode ino)) w /\ f_nodes (w_fs w) ino = Some n /\ n_regular n = true /\ lenN (n_content n) = 3 /\
  wr <> WriteNode ino /\ input_size entry_of link_len (IFileStream p) (w_fs w) size /\ provides entry_of (w_fs w) (ReadNode ino) wr src /\
  conversion_so_far lib d er src snk counts (Some (Ok tt)) snk' /\ display start size times counts lines /\ lines = ls ++ [l] /\ l_bytes l = 1 /\
  forall up, exists t rest, @format_progress_line cerr up (l_bytes l) size (l_speed l) (l_eta l) = Ok t /\ t = lit "   100.0 % " ++ rest.
Proof.
  destruct (case_shown ex_data (Some 1) eq_refl eq_refl eq_refl) as (counts & snk & times & lines & H & D & ls & l & El & _ & Bl & F).
  exists meter_names, (fun _ => 1), toy_lib, name_b, (mkWorld (meter_fs [x61; x62; x63]) [] (mkUi None false false 0 true None []) [] []), 7, (mkNode true [x61; x62; x63] 1), (WriteNode 8),
    ex_encrypt, ex_random, ex_data, ex_out, counts, snk, (Some 1), 0, times, lines, ls, l.
  split; [exact toy_lib_ok|]. split; [exact ex_random_ok|].
  split; [split; [reflexivity|]; right; exists 1, 0; split; [reflexivity|]; split; [reflexivity|]; left; exists 7; split; reflexivity|].
  do 3 (split; [reflexivity|]). split; [discriminate|]. split; [exists 1, 1; repeat split|]. split; [intros _ _; reflexivity|].
  split; [exact H|]. split; [exact D|]. split; [exact El|]. split; [exact Bl|]. intros up. destruct (F up) as (t & Et). destruct (line_starts up _ _ _ _ _ Et) as (rest & Er). exists t, rest. split; [exact Et|]. rewrite Er, Bl. reflexivity.
Qed.
Print Assumptions C83_whole_files_through_links_refuted.

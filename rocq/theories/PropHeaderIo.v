(** C13, C14: file framing.  Statements use [flat] (bytes delivered by a source) and [is_frame]
    (documented layout) from HeaderIoSpec. *)
From Coq Require Import List NArith Bool Lia.
From Coq.Strings Require Import Byte.
From Verif Require Import Base BaseFacts Shamir Errors Io HeaderIo HeaderIoSpec HeaderIoProofs.
Import ListNotations.

(** C13: however the source is segmented, a framed header followed by anything is read back, and the
    source is left exactly at the first byte after the frame. *)
Theorem C13_framed_header_is_read_back :
  forall (h f rest : bytes) (s : source),
    (1 <= lenN h <= 16 * 1024 * 1024)%N -> is_frame h f -> flat s = f ++ rest ->
    exists s', read_header s = Ok (h, lenN f, s') /\ flat s' = rest /\
               ends_in_error s' = ends_in_error s.
Proof.
  intros h f rest s Hh Hf Hs.
  apply frame_spec in Hf; [|unfold two32; lia]. subst f.
  exact (read_header_complete s h rest Hh Hs).
Qed.
Print Assumptions C13_framed_header_is_read_back.

(** C13: writing produces the frame; on a failing sink a strict prefix of it and an error. *)
Theorem C13_write_header_writes_the_frame :
  forall (h : bytes) (w : sink),
    (lenN h <= 16 * 1024 * 1024)%N ->
    exists f, is_frame h f /\ (lenN f mod 8 = 0)%N /\
      (room_for w (length f) -> fst (write_header w h) = Ok tt /\ w_out (snd (write_header w h)) = w_out w ++ f) /\
      (~ room_for w (length f) -> fst (write_header w h) = Err EIo /\
          exists k, k < length f /\ w_out (snd (write_header w h)) = w_out w ++ firstn k f).
Proof.
  intros h w Hh. exists (frame_of h).
  split; [apply frame_spec; [unfold two32; lia|reflexivity]|].
  split; [rewrite frame_of_length, <- N.add_assoc, <- N.add_mod_idemp_r, padding_aligned by discriminate; reflexivity|].
  destruct (write_header_spec w h Hh) as (r & w' & -> & [(A & B & C & D)|(A & B & k & C & D)]); cbn;
    split; intros R; try tauto; eauto.
Qed.
Print Assumptions C13_write_header_writes_the_frame.

Theorem C13_oversized_header_is_refused :
  forall (h : bytes) (w : sink),
    (16 * 1024 * 1024 < lenN h)%N -> write_header w h = (Err EHeaderTooLarge, w).
Proof. exact (fun h w H => write_header_too_large w h H). Qed.
Print Assumptions C13_oversized_header_is_refused.

(** C14: whatever is accepted was the frame of the returned header, byte for byte. *)
Theorem C14_accepted_framing_is_canonical :
  forall (s : source) (h : bytes) (n : N) (s' : source),
    read_header s = Ok (h, n, s') ->
    (1 <= lenN h <= 16 * 1024 * 1024)%N /\
    exists f, is_frame h f /\ flat s = f ++ flat s' /\ n = lenN f.
Proof.
  intros s h n s' H. apply read_header_sound in H. destruct H as (A & B & C & _).
  split; [exact A|]. exists (frame_of h). split; [|auto].
  apply frame_spec; [unfold two32, MAX_HEADER_LEN in *; lia|reflexivity].
Qed.
Print Assumptions C14_accepted_framing_is_canonical.

(** C14: input that is not a frame of an admissible header is rejected by an error, never a crash. *)
Theorem C14_other_framing_is_rejected :
  forall (s : source),
    (forall h f rest, is_frame h f -> flat s = f ++ rest -> ~ (1 <= lenN h <= 16 * 1024 * 1024)%N) ->
    exists e, read_header s = Err e.
Proof.
  intros s H. destruct (read_header s) as [[[h n] s']|e|] eqn:E.
  - exfalso. destruct (C14_accepted_framing_is_canonical _ _ _ _ E) as (A & f & B & C & D). exact (H _ _ _ B C A).
  - eauto.
  - exfalso. exact (read_header_no_panic _ E).
Qed.
Print Assumptions C14_other_framing_is_rejected.

Theorem C14_reading_never_panics : forall s, read_header s <> Panic.
Proof. exact read_header_no_panic. Qed.
Print Assumptions C14_reading_never_panics.

(** The layout determines the frame, and no frame is a proper prefix of another one. *)
Theorem C14_frames_are_unambiguous :
  forall h1 h2 f1 f2 r1 r2,
    (1 <= lenN h1 <= 16 * 1024 * 1024)%N -> (1 <= lenN h2 <= 16 * 1024 * 1024)%N ->
    is_frame h1 f1 -> is_frame h2 f2 -> f1 ++ r1 = f2 ++ r2 -> h1 = h2 /\ f1 = f2 /\ r1 = r2.
Proof.
  intros h1 h2 f1 f2 r1 r2 A1 A2 F1 F2 E.
  set (s := match f1 ++ r1 with [] => [] | d => [RData d] end).
  assert (S : flat s = f1 ++ r1) by (unfold s; destruct (f1 ++ r1); cbn; rewrite ?app_nil_r; reflexivity).
  destruct (C13_framed_header_is_read_back h1 f1 r1 s A1 F1 S) as (s1 & E1 & G1 & _).
  rewrite E in S.
  destruct (C13_framed_header_is_read_back h2 f2 r2 s A2 F2 S) as (s2 & E2 & G2 & _).
  rewrite E1 in E2. inversion E2; subst. split; [reflexivity|].
  apply frame_spec in F1, F2; try (unfold two32; lia). subst. auto.
Qed.
Print Assumptions C14_frames_are_unambiguous.

(** Concrete cases. *)
Example ex_frame :
  is_frame [x41; x42; x43]
    [x72; x79; x70; x74; x03; x00; x00; x00; x41; x42; x43; x00; x00; x00; x00; x00].
Proof.
  exists x03, x00, x00, x00, [x00; x00; x00; x00; x00].
  repeat split; [repeat constructor|simpl; lia|exists 2; reflexivity].
Qed.

Example ex_read_segmented :
  read_header [RData [x72]; RInterrupted; RData [x79; x70; x74; x03; x00; x00; x00; x41; x42];
               RData [x43; x00; x00; x00; x00; x00; x99]; RData [x98]]
  = Ok ([x41; x42; x43], 16%N, [RData [x99]; RData [x98]]).
Proof. vm_compute. reflexivity. Qed.

Example ex_bad_padding :
  read_header [RData [x72; x79; x70; x74; x03; x00; x00; x00; x41; x42; x43; x00; x00; x01; x00; x00]]
  = Err EHeaderPadding.
Proof. vm_compute. reflexivity. Qed.

Example ex_write :
  write_header (mkSink [] (Some 12) true false) [x41; x42; x43]
  = (Err EIo, mkSink [x72; x79; x70; x74; x03; x00; x00; x00; x41; x42; x43; x00] (Some 0) true false).
Proof. vm_compute. reflexivity. Qed.

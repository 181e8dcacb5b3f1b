(** [read_stream] delivers the fixed-size split of its input. *)
From Coq Require Import List NArith Bool Lia Arith.
From Coq.Strings Require Import Byte.
From Verif Require Import Base BaseFacts Shamir Errors Io HeaderIoSpec HeaderIoProofs Pipeline StreamSpec ChunkProofs PipelineProofs.
Import ListNotations.

Section Read.
Context (n : nat) (Hn : 1 <= n).

Lemma fill_spec src : forall c ptr, length (ck_buf c) = S n -> ptr <= S n ->
  let rest := firstn ptr (ck_buf c) ++ flat src in
  if Nat.leb (length rest) n then
    (if ends_in_error src then fill src c ptr = FError
     else exists c', fill src c ptr = FEof c' /\ ck_buf c' = rest /\ ck_last c' = true /\ ck_idx c' = ck_idx c)
  else exists c' src', fill src c ptr = FFull c' src' /\ length (ck_buf c') = S n /\
    rest = ck_buf c' ++ flat src' /\ ends_in_error src' = ends_in_error src /\ ck_idx c' = ck_idx c.
Proof.
  induction src as [|ev src IH]; intros c ptr Hl Hp rest.
  - cbn [fill]. destruct (Nat.leb_spec (length (ck_buf c)) ptr) as [Hf|Hf].
    + assert (Hr : rest = ck_buf c) by (unfold rest; cbn; rewrite app_nil_r; apply firstn_all2; lia).
      rewrite Hr. destruct (Nat.leb_spec (length (ck_buf c)) n); [lia|].
      exists c, []. repeat split; try assumption. cbn. rewrite app_nil_r. reflexivity.
    + assert (Hr : rest = firstn ptr (ck_buf c)) by (unfold rest; cbn; rewrite app_nil_r; reflexivity).
      destruct (Nat.leb_spec (length rest) n) as [Hx|Hx]; [|rewrite Hr, firstn_length in Hx; lia].
      cbn. eexists. split; [reflexivity|]. rewrite Hr. repeat split.
  - assert (Hfull : length (ck_buf c) <= ptr ->
      if Nat.leb (length rest) n then False else
      exists c' src', FFull c (ev :: src) = FFull c' src' /\ length (ck_buf c') = S n /\
        rest = ck_buf c' ++ flat src' /\ ends_in_error src' = ends_in_error (ev :: src) /\ ck_idx c' = ck_idx c).
    { intros Hf. assert (Hr : rest = ck_buf c ++ flat (ev :: src)) by (unfold rest; rewrite firstn_all2 by lia; reflexivity).
      destruct (Nat.leb_spec (length rest) n) as [Hx|Hx]; [rewrite Hr, app_length in Hx; lia|].
      exists c, (ev :: src). repeat split; assumption. }
    cbn [fill]. destruct (Nat.leb_spec (length (ck_buf c)) ptr) as [Hf|Hf].
    + specialize (Hfull Hf). destruct (Nat.leb (length rest) n); [contradiction|assumption].
    + clear Hfull. destruct ev as [[|x d]| |].
      * (* Ok(0) *)
        assert (Hr : rest = firstn ptr (ck_buf c)) by (unfold rest; cbn; rewrite app_nil_r; reflexivity).
        destruct (Nat.leb_spec (length rest) n) as [Hx|Hx]; [|rewrite Hr, firstn_length in Hx; lia].
        cbn. eexists. split; [reflexivity|]. rewrite Hr. repeat split.
      * remember (x :: d) as e eqn:Ee.
        assert (Hfl : flat (RData e :: src) = e ++ flat src) by (subst e; reflexivity).
        assert (Hen : ends_in_error (RData e :: src) = ends_in_error src) by (subst e; reflexivity).
        rewrite Hen.
        destruct (Nat.leb_spec (length e) (length (ck_buf c) - ptr)) as [Hx|Hx].
        -- set (c' := mkChunk (overwrite (ck_buf c) ptr e) (ck_cap c) (ck_last c) (ck_idx c)).
           assert (Hl' : length (ck_buf c') = S n) by (cbn; rewrite overwrite_length; lia).
           specialize (IH c' (ptr + length e) Hl' ltac:(lia)). cbn zeta in IH.
           assert (Hr : firstn (ptr + length e) (ck_buf c') ++ flat src = rest).
           { cbn [ck_buf c']. rewrite overwrite_firstn by lia. unfold rest. rewrite Hfl, app_assoc. reflexivity. }
           rewrite Hr in IH. exact IH.
        -- set (room := length (ck_buf c) - ptr) in *.
           assert (Hk : length (firstn room e) = room) by (apply firstn_length_le; lia).
           assert (Hr : rest = overwrite (ck_buf c) ptr (firstn room e) ++ skipn room e ++ flat src).
           { unfold rest. rewrite Hfl. rewrite <- (firstn_skipn room e) at 1. unfold overwrite.
             rewrite (skipn_all2 (n := ptr + length (firstn room e)) (ck_buf c)) by (rewrite Hk; unfold room; lia).
             rewrite app_nil_r, <- !app_assoc. reflexivity. }
           destruct (Nat.leb_spec (length rest) n) as [Hy|Hy].
           ++ exfalso. rewrite Hr, app_length, overwrite_length in Hy by (rewrite Hk; unfold room; lia). lia.
           ++ do 2 eexists. split; [reflexivity|]. cbn [ck_buf ck_idx]. repeat split.
              ** rewrite overwrite_length; [assumption|rewrite Hk; unfold room; lia].
              ** rewrite Hr. f_equal. destruct (skipn room e) as [|y z] eqn:Es; [|reflexivity].
                 exfalso. apply (f_equal (@length _)) in Es. rewrite skipn_length in Es. cbn in Es. lia.
              ** destruct (skipn room e) as [|y z] eqn:Es; [|reflexivity].
                 exfalso. apply (f_equal (@length _)) in Es. rewrite skipn_length in Es. cbn in Es. lia.
      * specialize (IH c ptr Hl Hp). exact IH.
      * (* error *)
        assert (Hr : rest = firstn ptr (ck_buf c)) by (unfold rest; cbn; rewrite app_nil_r; reflexivity).
        destruct (Nat.leb_spec (length rest) n) as [Hx|Hx]; [|rewrite Hr, firstn_length in Hx; lia].
        reflexivity.
Qed.

(** The chunks still to come when [rest] is unread and the source ends in an error or not. *)
Definition to_come (broken : bool) (rest : bytes) : list (bytes * bool) :=
  let cs := chunks n rest in
  if broken then map (fun c => (c, false)) (removelast cs) else flag_last cs.

Lemma to_come_small b rest : length rest <= n -> to_come b rest = if b then [] else [(rest, true)].
Proof.
  intros H. unfold to_come. rewrite chunks_eq by exact Hn.
  destruct (Nat.leb_spec (length rest) n); [|lia]. destruct b; reflexivity.
Qed.

Lemma to_come_big b rest : n < length rest -> to_come b rest = (firstn n rest, false) :: to_come b (skipn n rest).
Proof.
  intros H. unfold to_come. rewrite chunks_eq by exact Hn.
  destruct (Nat.leb_spec (length rest) n); [lia|].
  pose proof (chunks_length_pos n (skipn n rest) Hn) as Hp.
  destruct (chunks n (skipn n rest)); [cbn in Hp; lia|]. destruct b; reflexivity.
Qed.

Lemma read_stream_gen bufs : forall src lb,
  Forall (fun c => length (ck_buf c) = n) bufs ->
  let rest := opt_bytes lb ++ flat src in
  let '(sent, res) := read_stream src lb bufs in
  map (fun c => (ck_buf c, ck_last c)) sent = firstn (length bufs) (to_come (ends_in_error src) rest) /\
  map ck_idx sent = firstn (length sent) (map ck_idx bufs) /\
  res = (if ends_in_error src && Nat.ltb (length (to_come (ends_in_error src) rest)) (length bufs) then TErr EIo else TOk).
Proof.
  induction bufs as [|c bufs IH]; intros src lb Hf rest; cbn [read_stream].
  - cbn. split; [reflexivity|]. split; [reflexivity|]. destruct (ends_in_error src); reflexivity.
  - pose proof (Forall_inv Hf) as Hc. pose proof (Forall_inv_tail Hf) as Hf'. cbn beta in Hc.
    assert (Hs : exists c' ptr, start_chunk lb c = (c', ptr) /\ length (ck_buf c') = S n /\ ptr <= S n /\
      ck_idx c' = ck_idx c /\ firstn ptr (ck_buf c') = opt_bytes lb).
    { unfold start_chunk, buf_push. cbn.
      assert (Hl : length (ck_buf c ++ [x00]) = S n) by (rewrite app_length; cbn; lia).
      destruct lb as [b|]; do 2 eexists; (split; [reflexivity|]); cbn.
      - repeat split; try lia. destruct (ck_buf c ++ [x00]) eqn:Eb; [discriminate|]. cbn. cbn in Hl. lia.
      - repeat split; try assumption; lia. }
    destruct Hs as (c' & ptr & -> & Hl & Hp & Hi & Hfst).
    pose proof (fill_spec src c' ptr Hl Hp) as H. cbn zeta in H. rewrite Hfst in H. fold rest in H.
    destruct (Nat.leb_spec (length rest) n) as [Hx|Hx].
    + rewrite to_come_small by assumption. destruct (ends_in_error src).
      * rewrite H. cbn. auto.
      * destruct H as (d & -> & Hd1 & Hd2 & Hd3). cbn. rewrite Hd1, Hd2, Hd3, Hi. rewrite firstn_nil. auto.
    + destruct H as (d & src' & -> & Hd1 & Hd2 & Hd3 & Hd4).
      destruct (snoc_nth_error (ck_buf d) n Hd1) as (b & Hb & Hsnoc).
      unfold full_chunk. rewrite Hd1. replace (S n - 1) with n by lia. rewrite Hb.
      specialize (IH src' (Some b) Hf'). cbn zeta in IH.
      destruct (read_stream src' (Some b) bufs) as [sent res]. rewrite Hd3 in IH.
      assert (Hsk : skipn n rest = b :: flat src').
      { rewrite Hd2, Hsnoc, <- app_assoc. assert (Hfl : length (firstn n (ck_buf d)) = n) by (rewrite firstn_length; lia).
        rewrite <- Hfl at 1. rewrite skipn_app_exact. reflexivity. }
      assert (Hfn : firstn n rest = firstn n (ck_buf d)).
      { rewrite Hd2, firstn_app. replace (n - length (ck_buf d)) with 0 by lia. cbn. apply app_nil_r. }
      rewrite to_come_big by assumption. rewrite Hsk, Hfn. cbn [opt_bytes app] in IH.
      destruct IH as (IH1 & IH2 & IH3). cbn. rewrite IH1, IH2, Hd4, Hi. repeat split. exact IH3.
Qed.

Lemma read_stream_spec bufs src : Forall (fun c => length (ck_buf c) = n) bufs ->
  let '(sent, res) := read_stream src None bufs in
  map (fun c => (ck_buf c, ck_last c)) sent = firstn (length bufs) (input_chunks n src) /\
  map ck_idx sent = firstn (length sent) (map ck_idx bufs) /\
  res = (if ends_in_error src && Nat.ltb (length (input_chunks n src)) (length bufs) then TErr EIo else TOk).
Proof. intros H. exact (read_stream_gen bufs src None H). Qed.

End Read.

(** C26: the loop in [write_all]. *)
From Coq Require Import List Arith Bool Lia.
From Coq.Strings Require Import Byte.
From Verif Require Import Base Shamir Errors Io Writes.
Import ListNotations.

(** What the loop writes: everything if it succeeds, else a proper first part. *)
Lemma loop_spec : forall evs buf out r out' evs', write_loop evs buf out = (r, out', evs') ->
  (r = Ok tt /\ out' = out ++ buf) \/ (r = Err EIo /\ exists k, k < length buf /\ out' = out ++ firstn k buf).
Proof.
  induction evs as [|e evs IH]; intros buf out r out' evs' H.
  - destruct buf; cbn in H; injection H as <- <- _; left; split; try reflexivity; rewrite app_nil_r; reflexivity.
  - destruct buf as [|b buf]; [cbn in H; injection H as <- <- _; left; split; [reflexivity|rewrite app_nil_r; reflexivity]|].
    remember (b :: buf) as d eqn:Ed. destruct e as [n| |].
    + replace (write_loop (WAccept n :: evs) d out) with
        (if Nat.min n (length d) =? 0 then (Err EIo, out, evs) else write_loop evs (skipn (Nat.min n (length d)) d) (out ++ firstn (Nat.min n (length d)) d)) in H by (rewrite Ed; reflexivity).
      set (m := Nat.min n (length d)) in *. assert (Hm : m <= length d) by apply Nat.le_min_r. destruct (Nat.eqb_spec m 0) as [E|E].
      * injection H as <- <- _. right. split; [reflexivity|]. exists 0. split; [rewrite Ed; cbn; lia|]. cbn. rewrite app_nil_r. reflexivity.
      * destruct (IH _ _ _ _ _ H) as [[-> ->]|(-> & k & K & ->)].
        -- left. split; [reflexivity|]. rewrite <- app_assoc, firstn_skipn. reflexivity.
        -- right. split; [reflexivity|]. rewrite skipn_length in K. exists (m + k). split; [lia|].
           rewrite <- app_assoc. f_equal. rewrite <- (firstn_skipn m d) at 3. rewrite firstn_app, firstn_firstn, firstn_length.
           rewrite (Nat.min_l m (length d)) by lia. replace (Nat.min (m + k) m) with m by lia. replace (m + k - m) with k by lia. reflexivity.
    + rewrite Ed in H. cbn in H. rewrite <- Ed in H. apply (IH _ _ _ _ _ H).
    + rewrite Ed in H. cbn in H. injection H as <- <- _. right. split; [reflexivity|]. exists 0. split; [rewrite Ed; cbn; lia|]. cbn. rewrite app_nil_r. reflexivity.
Qed.
Lemma loops_spec : forall bufs evs out r out', write_loops evs bufs out = (r, out') ->
  (r = Ok tt /\ out' = out ++ concat bufs) \/ (r = Err EIo /\ exists k, k < length (concat bufs) /\ out' = out ++ firstn k (concat bufs) /\
     forall w, w_out w = out -> w_room w = Some k -> fst (write_alls w bufs) = Err EIo /\ w_out (snd (write_alls w bufs)) = out').
Proof.
  induction bufs as [|b bufs IH]; intros evs out r out' H; cbn [write_loops] in H.
  - injection H as <- <-. left. split; [reflexivity|]. cbn. rewrite app_nil_r. reflexivity.
  - destruct (write_loop evs b out) as [[r1 out1] evs1] eqn:E. destruct (loop_spec _ _ _ _ _ _ E) as [[-> ->]|(-> & k & K & ->)].
    + destruct (IH _ _ _ _ H) as [[-> ->]|(-> & k & K & -> & W)].
      * left. split; [reflexivity|]. cbn. rewrite app_assoc. reflexivity.
      * right. split; [reflexivity|]. exists (length b + k). cbn [concat]. rewrite app_length. split; [lia|]. split.
        -- rewrite <- app_assoc. f_equal. rewrite firstn_app, (firstn_all2 b) by lia. replace (length b + k - length b) with k by lia. reflexivity.
        -- intros w Ew Er. cbn [write_alls]. unfold write_all. rewrite Er. destruct (Nat.leb_spec (length b) (length b + k)); [|lia].
           apply (W (mkSink (w_out w ++ b) (Some (length b + k - length b)) (w_flush_ok w) false)); cbn; [rewrite Ew; reflexivity|f_equal; lia].
    + injection H as <- <-. right. split; [reflexivity|]. exists k. cbn [concat]. rewrite app_length. split; [lia|]. split.
      * f_equal. rewrite firstn_app. replace (k - length b) with 0 by lia. cbn. rewrite app_nil_r. reflexivity.
      * intros w Ew Er. cbn [write_alls]. unfold write_all. rewrite Er. destruct (Nat.leb_spec (length b) k); [lia|]. cbn. rewrite Ew. split; reflexivity.
Qed.

(** However the operating system splits, interrupts or refuses writes: a sequence of writes does what it does in Io, on a
    device with some amount of room. *)
Theorem C26_write_loops : forall evs bufs flush_ok,
  exists room, let w := mkSink [] room flush_ok false in
    fst (write_alls w bufs) = fst (write_loops evs bufs []) /\ w_out (snd (write_alls w bufs)) = snd (write_loops evs bufs []).
Proof.
  intros evs bufs ok. destruct (write_loops evs bufs []) as [r out'] eqn:E. cbn [fst snd]. destruct (loops_spec _ _ _ _ _ E) as [[-> ->]|(-> & k & _ & -> & W)].
  - exists None. assert (K : forall v, w_room v = None -> fst (write_alls v bufs) = Ok tt /\ w_out (snd (write_alls v bufs)) = w_out v ++ concat bufs).
    { clear. induction bufs as [|b bufs IH]; intros v Er; cbn [write_alls concat]; [cbn; rewrite app_nil_r; auto|]. unfold write_all. rewrite Er.
      destruct (IH (mkSink (w_out v ++ b) None (w_flush_ok v) false) eq_refl) as [A B]. rewrite A, B. cbn. rewrite <- app_assoc. auto. }
    exact (K (mkSink [] None ok false) eq_refl).
  - exists (Some k). apply W; reflexivity.
Qed.
Print Assumptions C26_write_loops.

(** A success means that all has been written, also if a write was interrupted or wrote only a part. *)
Theorem C26_write_loops_success : forall evs bufs out', write_loops evs bufs [] = (Ok tt, out') -> out' = concat bufs.
Proof. intros evs bufs out' E. destruct (loops_spec _ _ _ _ _ E) as [[_ ->]|(X & _)]; [reflexivity|discriminate X]. Qed.
Print Assumptions C26_write_loops_success.

(** Conversely, every amount of room of Io can occur. *)
Theorem C26_every_room : forall room bufs flush_ok, exists evs,
  let w := mkSink [] room flush_ok false in
  write_loops evs bufs [] = (fst (write_alls w bufs), w_out (snd (write_alls w bufs))).
Proof.
  assert (K : forall bufs room out ok fl, write_loops (match room with None => [] | Some 0 => [WError] | Some k => repeat (WAccept 1) k ++ [WError] end) bufs out =
     (fst (write_alls (mkSink out room ok fl) bufs), w_out (snd (write_alls (mkSink out room ok fl) bufs)))).
  { induction bufs as [|b bufs IH]; intros room out ok fl; [reflexivity|]. cbn [write_loops write_alls]. unfold write_all. cbn [w_room w_out w_flush_ok].
    destruct room as [k|].
    - assert (One : forall b k out, write_loop (match k with 0 => [WError] | _ => repeat (WAccept 1) k ++ [WError] end) b out =
        if Nat.leb (length b) k then (Ok tt, out ++ b, match k - length b with 0 => [WError] | _ => repeat (WAccept 1) (k - length b) ++ [WError] end)
        else (Err EIo, out ++ firstn k b, [])).
      { clear. intros b k. replace (match k with 0 => [WError] | _ => repeat (WAccept 1) k ++ [WError] end) with (repeat (WAccept 1) k ++ [WError]) by (destruct k; reflexivity).
        revert b. induction k as [|k IH]; intros [|x b] out.
        - cbn. rewrite app_nil_r. reflexivity.
        - cbn. rewrite app_nil_r. reflexivity.
        - cbn. rewrite app_nil_r. reflexivity.
        - cbn [repeat app write_loop]. replace (Nat.min 1 (length (x :: b))) with 1 by (cbn; lia). cbn [Nat.eqb skipn firstn]. rewrite IH. cbn [length Nat.leb Nat.sub].
          destruct (Nat.leb (length b) k); rewrite <- app_assoc; reflexivity. }
      rewrite One. destruct (Nat.leb (length b) k); [|reflexivity]. rewrite <- (IH (Some (k - length b)) (out ++ b) ok false). reflexivity.
    - assert (One : write_loop [] b out = (Ok tt, out ++ b, [])) by (destruct b; cbn; [rewrite app_nil_r|]; reflexivity). rewrite One.
      rewrite <- (IH None (out ++ b) ok false). reflexivity. }
  intros room bufs ok. eexists. apply K.
Qed.
Print Assumptions C26_every_room.

(** Four bytes: one, an interruption, two more in two writes, an error. *)
Example C26_write_loops_case :
  write_loops [WAccept 1; WInterrupted; WAccept 2; WAccept 1; WError] [[x61; x62]; [x63; x64]] [] = (Err EIo, [x61; x62; x63]) /\
  write_loops [WAccept 1; WInterrupted; WAccept 2; WAccept 7] [[x61; x62]; [x63; x64]] [] = (Ok tt, [x61; x62; x63; x64]).
Proof. split; reflexivity. Qed.

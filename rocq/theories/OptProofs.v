(** Proofs about the command line syntax (C68). *)
From Coq.Strings Require Import Byte String.
From Coq Require Import List NArith Bool PeanoNat Lia.
From Verif Require Import Base BaseFacts Text Util CliErrors Getopts CliProofs3 OptSpec.
Import ListNotations.
Local Open Scope N_scope.

Lemma has_value_doc o : has_value o = true <-> takes_value o.
Proof. destruct o; cbn; intuition discriminate. Qed.
Lemma has_value_not o : has_value o = false <-> ~ takes_value o.
Proof. destruct o; cbn; intuition discriminate. Qed.
Lemma may_repeat_doc o : may_repeat o = false <-> only_once o.
Proof. destruct o; cbn; intuition discriminate. Qed.
Lemma short_doc o c : short o = Some c <-> letter o c.
Proof. destruct o; unfold letter; cbn; split; intros H; (discriminate H || (injection H as <-; reflexivity)). Qed.
Lemma long_doc o : long o = lit (snd (fst (documented o))).
Proof. destruct o; reflexivity. Qed.

Lemma find_short_doc c o : find_short c = Some o <-> letter o c.
Proof. rewrite <- short_doc. split; [apply find_short_some|apply find_short_complete]. Qed.
Lemma text_eqb_refl t : text_eqb t t = true.
Proof. induction t as [|c t IH]; cbn [text_eqb]; [reflexivity|]. rewrite N.eqb_refl. exact IH. Qed.
Lemma text_eqb_true a : forall b, text_eqb a b = true -> a = b.
Proof. induction a as [|x a IH]; intros [|y b] H; try discriminate H; [reflexivity|]. cbn in H. apply andb_prop in H as [H1 H2]. apply N.eqb_eq in H1 as ->. rewrite (IH _ H2). reflexivity. Qed.
Lemma find_name_doc name o : find_name name = Some o <-> called o name.
Proof.
  split.
  - intros H. destruct name as [|c [|c2 name]].
    + cbn [find_name] in H. vm_compute in H. discriminate H.
    + cbn [find_name] in H. apply find_short_doc in H. right. exists c. auto.
    + cbn [find_name] in H. apply find_some in H as [_ H]. apply text_eqb_true in H. left. rewrite <- H. apply long_doc.
  - intros [->|(c & L & ->)].
    + rewrite <- long_doc. apply find_long_complete.
    + cbn [find_name]. apply find_short_doc, L.
Qed.
Lemma find_name_none name : find_name name = None -> forall o, ~ called o name.
Proof. intros H o K. apply find_name_doc in K. congruence. Qed.
Lemma find_short_none c : find_short c = None -> forall o, ~ letter o c.
Proof. intros H o K. apply find_short_doc in K. congruence. Qed.

(** Splitting at the first [=] *)
Lemma split_spec t : forall name v, split_equals t = (name, v) -> ~ In 61 name /\ match v with Some v => t = name ++ 61 :: v | None => t = name end.
Proof.
  induction t as [|c t IH]; cbn [split_equals]; intros name v H; [injection H as <- <-; auto|].
  destruct (N.eqb_spec c 61) as [->|D]; [injection H as <- <-; auto|]. destruct (split_equals t) as [n x]. injection H as <- <-. destruct (IH _ _ eq_refl) as [A B].
  split; [intros [E|I]; [congruence|auto]|]. destruct x; cbn [app]; congruence.
Qed.
Lemma split_none name : ~ In 61 name -> split_equals name = (name, None).
Proof.
  induction name as [|c name IH]; intros N; [reflexivity|]. cbn [split_equals]. destruct (N.eqb_spec c 61) as [->|D]; [destruct N; left; reflexivity|].
  rewrite IH; [reflexivity|]. intros I. apply N. right. exact I.
Qed.
Lemma split_some name v : ~ In 61 name -> split_equals (name ++ 61 :: v) = (name, Some v).
Proof.
  induction name as [|c name IH]; intros N; [reflexivity|]. cbn [split_equals app]. destruct (N.eqb_spec c 61) as [->|D]; [destruct N; left; reflexivity|].
  rewrite IH; [reflexivity|]. intros I. apply N. right. exact I.
Qed.
Lemma called_plain o name : called o name -> ~ In 61 name /\ name <> [].
Proof.
  intros [->|(c & L & ->)].
  - split; [destruct o; vm_compute; intuition discriminate|destruct o; vm_compute; discriminate].
  - split; [|discriminate]. intros [->|[]]. apply short_doc in L. destruct o; discriminate L.
Qed.
Lemma letter_not_dash o c : letter o c -> c <> 45.
Proof. intros L ->. apply short_doc in L. destruct o; discriminate L. Qed.
Lemma letter_fun o o' c : letter o c -> letter o' c -> o = o'.
Proof. intros L L'. apply find_short_doc in L, L'. congruence. Qed.

(** Clusters *)
Definition given (pos : nat) (os : list opt) : list occurrence := map (fun o => mkOcc pos o None) os.
Lemma cluster_flags pos os letters rest : flags os letters -> cluster pos (letters ++ rest) = (let* (occs, last) := cluster pos rest in Ok (given pos os ++ occs, last)).
Proof.
  induction 1 as [|o c os cs [L V] F IH]; cbn [app]; [destruct (cluster pos rest) as [[]| |]; reflexivity|].
  cbn [cluster]. rewrite (proj2 (find_short_doc _ _) L), (proj2 (has_value_not _) V), IH. destruct (cluster pos rest) as [[occs last]| |]; reflexivity.
Qed.
Lemma cluster_inv pos cs : exists os letters, flags os letters /\
  ((cs = letters /\ cluster pos cs = Ok (given pos os, None)) \/
   (exists o c v, cs = letters ++ c :: v /\ letter o c /\ takes_value o /\ cluster pos cs = Ok (given pos os, Some (o, v))) \/
   (exists c rest, cs = letters ++ c :: rest /\ (forall o, ~ letter o c) /\ cluster pos cs = Err CUnrecognizedOption)).
Proof.
  induction cs as [|c cs IH]; [exists [], []; split; [constructor|]; left; split; reflexivity|]. cbn [cluster].
  destruct (find_short c) as [o|] eqn:Eo.
  - apply find_short_doc in Eo. destruct (has_value o) eqn:Ev.
    + exists [], []. split; [constructor|]. right. left. exists o, c, cs. apply has_value_doc in Ev. auto.
    + apply has_value_not in Ev. destruct IH as (os & letters & F & [(-> & ->)|[(o2 & c2 & v & -> & L2 & T2 & ->)|(c2 & rest & -> & N2 & ->)]]); exists (o :: os), (c :: letters); (split; [constructor; auto|]); cbn [bind].
      * left. split; reflexivity.
      * right. left. exists o2, c2, v. auto.
      * right. right. exists c2, rest. auto.
  - exists [], []. split; [constructor|]. right. right. exists c, cs. split; [reflexivity|]. split; [apply find_short_none, Eo|reflexivity].
Qed.

(** ** What the syntax allows *)
Lemma head_not_dash os letters o c v : flags os letters -> letter o c -> exists c0 cs, letters ++ c :: v = c0 :: cs /\ c0 <> 45.
Proof. intros F L. destruct F as [|o1 c1 os1 cs1 [L1 _] _]; cbn [app]; eexists _, _; (split; [reflexivity|]); eapply letter_not_dash; eassumption. Qed.
Lemma item_parse pos args o f : item pos args o f -> forall rest,
  parse_args pos (args ++ rest) = let* m := parse_args (S pos) rest in Ok (mkMatches (o ++ m_occs m) (f ++ m_free m)).
Proof.
  intros I rest. destruct I as [w W|o name C V|o name v C V|o name v C V|os letters F N|os letters o c v F L V Nv|os letters o c v F L V]; cbn [app].
  - apply args_free, W.
  - destruct (called_plain _ _ C) as [A B]. change (lit "--" ++ name) with (45 :: 45 :: name). rewrite args_long by exact B.
    rewrite (split_none _ A), (proj2 (find_name_doc _ _) C), (proj2 (has_value_not _) V). reflexivity.
  - destruct (called_plain _ _ C) as [A B]. change (lit "--" ++ name ++ lit "=" ++ v) with (45 :: 45 :: name ++ 61 :: v).
    rewrite args_long by (destruct name; discriminate). rewrite (split_some _ _ A), (proj2 (find_name_doc _ _) C), (proj2 (has_value_doc _) V). reflexivity.
  - destruct (called_plain _ _ C) as [A B]. change (lit "--" ++ name) with (45 :: 45 :: name). rewrite args_long by exact B.
    rewrite (split_none _ A), (proj2 (find_name_doc _ _) C), (proj2 (has_value_doc _) V). reflexivity.
  - change (lit "-" ++ letters) with (45 :: letters). destruct F as [|o c os cs [L V] F]; [contradiction|]. rewrite args_short by (eapply letter_not_dash, L).
    rewrite <- (app_nil_r (c :: cs)), (cluster_flags pos (o :: os) (c :: cs) []) by (constructor; auto). cbn [cluster bind]. rewrite app_nil_r. reflexivity.
  - change (lit "-" ++ letters ++ c :: v) with (45 :: (letters ++ c :: v)).
    assert (K : cluster pos (letters ++ c :: v) = Ok (given pos os ++ [], Some (o, v))).
    { rewrite (cluster_flags _ _ _ _ F). cbn [cluster]. rewrite (proj2 (find_short_doc _ _) L), (proj2 (has_value_doc _) V). reflexivity. }
    destruct (head_not_dash _ _ _ _ v F L) as (c0 & cs & E & D). rewrite E in *. rewrite args_short by exact D. rewrite K. cbn [bind]. rewrite app_nil_r.
    destruct v as [|x v]; [contradiction|]. reflexivity.
  - change (lit "-" ++ letters ++ [c]) with (45 :: (letters ++ [c])).
    assert (K : cluster pos (letters ++ [c]) = Ok (given pos os ++ [], Some (o, []))).
    { rewrite (cluster_flags _ _ _ _ F). cbn [cluster]. rewrite (proj2 (find_short_doc _ _) L), (proj2 (has_value_doc _) V). reflexivity. }
    destruct (head_not_dash _ _ _ _ [] F L) as (c0 & cs & E & D). rewrite E in *. rewrite args_short by exact D. rewrite K. cbn [bind]. rewrite app_nil_r. reflexivity.
Qed.
Lemma reads_parse pos args occs free : means pos args occs free -> parse_args pos args = Ok (mkMatches occs free).
Proof.
  induction 1 as [pos|pos rest|pos args o f rest occs free I R IH]; [reflexivity|reflexivity|].
  rewrite (item_parse _ _ _ _ I), IH. reflexivity.
Qed.

Lemma wrong_parse pos args e : wrong args e -> parse_args pos args = Err e.
Proof.
  intros [name args' N A C|name v args' A C|os letters c rest args' F N D|o name v args' C V|o name C V|os letters o c F L V].
  - change (lit "--" ++ name) with (45 :: 45 :: name). rewrite args_long by exact N. rewrite (split_none _ A).
    destruct (find_name name) as [o|] eqn:E; [apply find_name_doc in E; destruct (C _ E)|reflexivity].
  - change (lit "--" ++ name ++ lit "=" ++ v) with (45 :: 45 :: name ++ 61 :: v). rewrite args_long by (destruct name; discriminate). rewrite (split_some _ _ A).
    destruct (find_name name) as [o|] eqn:E; [apply find_name_doc in E; destruct (C _ E)|reflexivity].
  - change (lit "-" ++ letters ++ c :: rest) with (45 :: (letters ++ c :: rest)).
    assert (K : cluster pos (letters ++ c :: rest) = Err CUnrecognizedOption).
    { rewrite (cluster_flags _ _ _ _ F). cbn [cluster]. destruct (find_short c) as [o|] eqn:E; [apply find_short_doc in E; destruct (N _ E)|reflexivity]. }
    destruct (letters ++ c :: rest) as [|c0 cs] eqn:E; [destruct letters; discriminate E|].
    rewrite args_short; [rewrite K; reflexivity|]. destruct F as [|o1 c1 os1 cs1 [L1 _] _]; injection E as <- _; [auto|eapply letter_not_dash, L1].
  - destruct (called_plain _ _ C) as [A B]. change (lit "--" ++ name ++ lit "=" ++ v) with (45 :: 45 :: name ++ 61 :: v).
    rewrite args_long by (destruct name; discriminate). rewrite (split_some _ _ A), (proj2 (find_name_doc _ _) C), (proj2 (has_value_not _) V). reflexivity.
  - destruct (called_plain _ _ C) as [A B]. change (lit "--" ++ name) with (45 :: 45 :: name). rewrite args_long by exact B.
    rewrite (split_none _ A), (proj2 (find_name_doc _ _) C), (proj2 (has_value_doc _) V). reflexivity.
  - change (lit "-" ++ letters ++ [c]) with (45 :: (letters ++ [c])).
    assert (K : cluster pos (letters ++ [c]) = Ok (given pos os ++ [], Some (o, []))).
    { rewrite (cluster_flags _ _ _ _ F). cbn [cluster]. rewrite (proj2 (find_short_doc _ _) L), (proj2 (has_value_doc _) V). reflexivity. }
    destruct (head_not_dash _ _ _ _ [] F L) as (c0 & cs & E & D). rewrite E in *. rewrite args_short by exact D. rewrite K. reflexivity.
Qed.
(** The number does not matter for whether it can be read. *)
Lemma item_pos pos pos' args o f : item pos args o f -> exists o', item pos' args o' f.
Proof. intros []; eexists; econstructor; eassumption. Qed.
Lemma goes_wrong_parse args e : goes_wrong args e -> forall pos, parse_args pos args = Err e.
Proof.
  induction 1 as [args e W|p args o f rest e I G IH]; intros pos; [apply wrong_parse, W|].
  destruct (item_pos _ pos _ _ _ I) as (o' & I'). rewrite (item_parse _ _ _ _ I'), IH. reflexivity.
Qed.

(** ** It is all the parser does *)
Lemma first_item pos cur args :
  (cur = lit "--") \/ (exists e, wrong (cur :: args) e) \/
  (exists taken rest o f, cur :: args = taken ++ rest /\ taken <> [] /\ item pos taken o f).
Proof.
  destruct (arg_forms cur) as [->|[(tail & N & ->)|[(c & cs & D & ->)|W]]].
  - left. reflexivity.
  - right. destruct (split_equals tail) as [name v] eqn:Es. destruct (split_spec _ _ _ Es) as [A B]. destruct (find_name name) as [o|] eqn:Ef.
    + apply find_name_doc in Ef. destruct (has_value o) eqn:Ev; [apply has_value_doc in Ev|apply has_value_not in Ev]; destruct v as [v|]; subst tail.
      * right. eexists [_], args, _, _. split; [reflexivity|]. split; [discriminate|]. exact (it_long_equals pos o name v Ef Ev).
      * destruct args as [|v args]; [left; eexists; exact (wr_long_last o name Ef Ev)|].
        right. eexists [_; _], args, _, _. split; [reflexivity|]. split; [discriminate|]. exact (it_long_next pos o name v Ef Ev).
      * left. eexists. exact (wr_value o name v args Ef Ev).
      * right. eexists [_], args, _, _. split; [reflexivity|]. split; [discriminate|]. exact (it_long pos o name Ef Ev).
    + left. eexists. destruct v as [v|]; subst tail; [exact (wr_long_equals name v args A (find_name_none _ Ef))|exact (wr_long name args N A (find_name_none _ Ef))].
  - right. destruct (cluster_inv pos (c :: cs)) as (os & letters & F & [(E & _)|[(o & c2 & v & E & L & T & _)|(c2 & rest & E & U & _)]]).
    + right. eexists [_], args, _, _. split; [reflexivity|]. split; [discriminate|]. rewrite E. refine (it_short pos os letters F _). intros ->. inversion F; congruence.
    + destruct v as [|x v].
      * destruct args as [|v args]; rewrite E; [left; eexists; exact (wr_short_last os letters o c2 F L T)|].
        right. eexists [_; _], args, _, _. split; [reflexivity|]. split; [discriminate|]. exact (it_short_next pos os letters o c2 v F L T).
      * right. eexists [_], args, _, _. split; [reflexivity|]. split; [discriminate|]. rewrite E. refine (it_short_attached pos os letters o c2 (x :: v) F L T _). discriminate.
    + left. eexists. rewrite E. refine (wr_short os letters c2 rest args F U _). intros ->. injection E as <- _. exact D.
  - right. right. eexists [_], args, _, _. split; [reflexivity|]. split; [discriminate|]. exact (it_word pos cur W).
Qed.
Lemma read_or_wrong n : forall pos args, (length args <= n)%nat -> (exists occs free, means pos args occs free) \/ (exists e, goes_wrong args e).
Proof.
  induction n as [|n IH]; intros pos [|cur args] L; cbn [length] in L; try lia; try (left; eexists _, _; apply rd_end).
  destruct (first_item pos cur args) as [->|[(e & W)|(taken & rest & o & f & E & N & I)]].
  - left. eexists _, _. apply rd_stop.
  - right. exists e. apply gw_here, W.
  - rewrite E. assert (Lr : (length rest <= n)%nat).
    { apply (f_equal (@length _)) in E. rewrite app_length in E. cbn [length] in E. destruct taken; [contradiction|]. cbn [length] in E. lia. }
    destruct (IH (S pos) rest Lr) as [(occs & free & R)|(e & G)]; [left; eexists _, _; eapply rd_item; eassumption|right; exists e; eapply gw_later; eassumption].
Qed.

Lemma times_count o occs free : opt_count (mkMatches occs free) o = N.of_nat (times o occs).
Proof. reflexivity. Qed.
Lemma all_listed o : In o all_opts.
Proof. destruct o; cbn; tauto. Qed.
Lemma once_check occs free :
  forallb (fun o => may_repeat o || (opt_count (mkMatches occs free) o <=? 1)) all_opts = true <-> forall o, only_once o -> (times o occs <= 1)%nat.
Proof.
  rewrite forallb_forall. split.
  - intros H o O. specialize (H o (all_listed o)). apply may_repeat_doc in O. rewrite O in H. cbn [orb] in H. apply N.leb_le in H. rewrite times_count in H. lia.
  - intros H o _. destruct (may_repeat o) eqn:E; [reflexivity|]. apply may_repeat_doc in E. apply N.leb_le. rewrite times_count. specialize (H o E). lia.
Qed.
Lemma once_fails occs free :
  forallb (fun o => may_repeat o || (opt_count (mkMatches occs free) o <=? 1)) all_opts = false -> exists o, only_once o /\ (2 <= times o occs)%nat.
Proof.
  intros H. assert (K : forall l, forallb (fun o => may_repeat o || (opt_count (mkMatches occs free) o <=? 1)) l = false -> exists o, only_once o /\ (2 <= times o occs)%nat).
  { induction l as [|o l IH]; cbn [forallb]; [discriminate|]. intros E. apply andb_false_iff in E as [E|E]; [|auto]. apply orb_false_iff in E as [E1 E2].
    exists o. split; [apply may_repeat_doc, E1|]. apply N.leb_gt in E2. rewrite times_count in E2. lia. }
  exact (K _ H).
Qed.
Theorem options_read args m : parse_options args = Ok m <-> means 0 args (m_occs m) (m_free m) /\ forall o, only_once o -> (times o (m_occs m) <= 1)%nat.
Proof.
  split.
  - intros H. unfold parse_options in H. destruct (read_or_wrong _ 0%nat args (Nat.le_refl _)) as [(occs & free & R)|(e & G)].
    + rewrite (reads_parse _ _ _ _ R) in H. cbn [bind] in H. unfold ensure in H. destruct (forallb _ _) eqn:E; [|discriminate H]. injection H as <-. split; [exact R|]. eapply once_check, E.
    + rewrite (goes_wrong_parse _ _ G) in H. discriminate H.
  - intros [R O]. destruct m as [occs free]. cbn [m_occs m_free] in *. unfold parse_options. rewrite (reads_parse _ _ _ _ R). cbn [bind]. unfold ensure.
    rewrite (proj2 (once_check occs free) O). reflexivity.
Qed.
Theorem options_refused args e : parse_options args = Err e <->
  goes_wrong args e \/ (e = COptionDuplicated /\ exists occs free o, means 0 args occs free /\ only_once o /\ (2 <= times o occs)%nat).
Proof.
  split.
  - intros H. unfold parse_options in H. destruct (read_or_wrong _ 0%nat args (Nat.le_refl _)) as [(occs & free & R)|(e' & G)].
    + rewrite (reads_parse _ _ _ _ R) in H. cbn [bind] in H. unfold ensure in H. destruct (forallb _ _) eqn:E; [discriminate H|]. injection H as <-. right. split; [reflexivity|].
      destruct (once_fails _ _ E) as (o & O & T). exists occs, free, o. auto.
    + rewrite (goes_wrong_parse _ _ G) in H. injection H as <-. left. exact G.
  - intros [G|(-> & occs & free & o & R & O & T)]; unfold parse_options.
    + rewrite (goes_wrong_parse _ _ G). reflexivity.
    + rewrite (reads_parse _ _ _ _ R). cbn [bind]. unfold ensure. destruct (forallb _ _) eqn:E; [|reflexivity]. apply once_check with (o := o) in E; [lia|exact O].
Qed.
Theorem options_or_refused args : (exists m, parse_options args = Ok m) \/ exists e, parse_options args = Err e.
Proof.
  unfold parse_options. destruct (read_or_wrong _ 0%nat args (Nat.le_refl _)) as [(occs & free & R)|(e & G)].
  - rewrite (reads_parse _ _ _ _ R). cbn [bind]. unfold ensure. destruct (forallb _ _); cbn [bind]; [left|right]; eexists; reflexivity.
  - rewrite (goes_wrong_parse _ _ G). right. eexists. reflexivity.
Qed.
Lemma reads_stop read : forall pos occs free rest, means pos read occs free -> ~ In (lit "--") read -> means pos (read ++ lit "--" :: rest) occs (free ++ rest).
Proof.
  intros pos occs free rest R. induction R as [pos|pos r|pos args o f r occs free I R IH]; intros N.
  - apply rd_stop.
  - destruct N. left. reflexivity.
  - rewrite <- !app_assoc. apply rd_item; [exact I|]. apply IH. intros K. apply N, in_or_app. right. exact K.
Qed.

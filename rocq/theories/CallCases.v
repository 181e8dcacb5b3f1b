(** Runs for the examples of PropCalls: a file is encrypted and removed, while other processes do something else, or
    replace the original. *)
From Coq.Strings Require Import Byte String.
From Coq Require Import List NArith ZArith Bool PeanoNat Lia.
From Verif Require Import Base BaseFacts Shamir Errors Io HeaderIo HeaderIoSpec HeaderIoProofs StreamSpec StreamCrypto StreamProofs Text Util CliErrors Getopts Crypto HeaderCrypto CredSpec FileCrypto FileProofs KeyFiles Ui UiSpec Paths PathSpec PathProofs CliCreds Cli CliSpec Progress Fs Commands FsSpec
  HeaderCryptoProofs2 HeaderCryptoProofs4 HeaderPanics FsProofs ConvProofs FsProofs3 FsProofs4 FsProofs11 FsProofs12 Proto ToyCrypto FsCases FsCases2 Program Calls CallSpec CallProofs CallProofs2 CallProofs3 CallProofs4 CallProofs5.
Import ListNotations.
Local Open Scope N_scope.

(** ** Removals in runs *)
Lemma vanishes entry_of w h w' s : shared entry_of nothing w h w' -> f_entries (w_fs w) s <> None -> f_entries (w_fs w') s = None ->
  exists b p w1 w2, happens h b (SRemove p (Ok tt)) /\ entry_of p = Some s /\ shared entry_of nothing w b w1 /\ takes entry_of (SRemove p (Ok tt)) w1 w2 /\
    f_entries (w_fs w1) s <> None /\ f_entries (w_fs w2) s = None.
Proof.
  intros H. induction H as [w|e h w w1 w' T H IH|f h w w' [] H IH]; intros N E; [contradiction|].
  destruct (step_entries entry_of e w w1 s T) as [K|[(q & i & _ & _ & K & _)|[(q & q' & i & _ & _ & _ & K & _)|(p & -> & Ep & _ & K)]]]; [|contradiction..|].
  - destruct IH as (b & p & v1 & v2 & [a ->] & A & B & C); [rewrite K; exact N|exact E|]. exists (e :: b), p, v1, v2. split; [exists a; reflexivity|]. split; [exact A|]. split; [econstructor; eassumption|exact C].
  - exists [], p, w, w1. split; [exists h; reflexivity|]. split; [exact Ep|]. split; [constructor|]. split; [exact T|]. split; assumption.
Qed.
Lemma shared_last entry_of others w b w1 f : shared entry_of others w b w1 -> others (w_fs w1) f -> shared entry_of others w b (set_fs w1 f).
Proof.
  intros H O. induction H as [w|e h w w1 w' T H IH|g h w w' O' H IH]; [eapply sh_other; [exact O|constructor]|econstructor; [exact T|apply IH, O]|eapply sh_other; [exact O'|apply IH, O]].
Qed.
Lemma shared_more entry_of (o1 o2 : fs -> fs -> Prop) w b w1 : (forall f g, o1 f g -> o2 f g) -> shared entry_of o1 w b w1 -> shared entry_of o2 w b w1.
Proof. intros O H. induction H; [constructor|econstructor; eassumption|eapply sh_other; eauto]. Qed.
Lemma step_spacious entry_of e w w' : takes entry_of e w w' -> spacious (w_fs w) -> spacious (w_fs w').
Proof.
  intros T S. destruct e as [p r|p r|p r|p r|p r|src|d rd wr src out r|wr t out r|pair|out r|new]; cbn [takes] in T.
  - destruct T as [-> _]. exact S.
  - destruct T as [-> _]. exact S.
  - destruct T as [(_ & -> & _)|(s0 & j & E & N & U & -> & ->)]; [exact S|]. apply spacious_add, S.
  - destruct T as [(_ & -> & _)|(s0 & t & j & E & F & -> & [(N & U & ->)|(n & A & B & ->)])]; [exact S|apply spacious_add, S|]. destruct (n_regular n); [apply spacious_content, S|exact S].
  - unfold remove_file in T. destruct (entry_of p) as [s0|] eqn:E; [|destruct T as [_ ->]; exact S].
    destruct (f_entries (w_fs w) s0) as [[k|l|]|] eqn:Ee; [| |destruct T as [_ ->]; exact S|destruct T as [_ ->]; exact S]; (destruct T as [(_ & _ & ->)|(-> & ->)]; [exact S|apply spacious_unlink, S]).
  - unfold open_stdin in T. destruct (u_input (w_ui w)); destruct T as [_ ->]; exact S.
  - destruct T as [_ [lines ->]]. apply spacious_write, S.
  - subst w'. apply spacious_write, S.
  - subst w'. exact S.
  - subst w'. exact S.
  - destruct T as (u & -> & _). exact S.
Qed.
Lemma alone_spacious entry_of w h w' : shared entry_of nothing w h w' -> spacious (w_fs w) -> spacious (w_fs w').
Proof. intros H. induction H as [w|e h w w1 w' T H IH|f h w w' [] H IH]; intros S; [exact S|]. apply IH. eapply step_spacious; eassumption. Qed.

(** Only the file system and the terminal matter for what calls do, not the record of earlier states. *)
Lemma alone_again entry_of w h w' (others : fs -> fs -> Prop) : faulty entry_of = false -> shared entry_of nothing w h w' ->
  forall v, w_fs v = w_fs w -> w_ui v = w_ui w -> exists v', shared entry_of others v h v' /\ w_fs v' = w_fs w' /\ w_ui v' = w_ui w'.
Proof.
  revert w w'. intros w0 w0' Nf.
  assert (Wo : forall wr out v w,  w_fs v = w_fs w -> w_ui v = w_ui w -> w_fs (write_out wr out v) = w_fs (write_out wr out w) /\ w_ui (write_out wr out v) = w_ui (write_out wr out w)).
    { intros [i|] out v w F U; [|split; assumption]. cbn [write_out]. rewrite F. destruct (f_nodes (w_fs w) i) as [n|]; [|auto]. destruct (n_regular n); [|auto].
      generalize (seq 1 (length out)). intros l. revert v w F U. induction l as [|k l IH]; intros v w F U; cbn [fold_left]; [auto|]. apply IH; cbn [set_fs w_fs w_ui]; [rewrite F; reflexivity|exact U]. }
  assert (St : forall e w w1 v, takes entry_of e w w1 -> w_fs v = w_fs w -> w_ui v = w_ui w -> exists v1, takes entry_of e v v1 /\ w_fs v1 = w_fs w1 /\ w_ui v1 = w_ui w1).
    { intros e w w1 v T F U. destruct e as [p r|p r|p r|p r|p r|src|d rd wr src out r|wr t out r|pair|out r|new]; cbn [takes] in *.
      - destruct T as [-> T]. exists v. split; [split; [reflexivity|rewrite F; exact T]|auto].
      - destruct T as [-> T]. exists v. split; [split; [reflexivity|rewrite F; exact T]|auto].
      - destruct T as [(A & -> & B)|(s0 & i & A & B & C & -> & ->)]; [exists v; split; [left; rewrite F; auto|auto]|]. exists (set_fs v (add_file (w_fs v) s0 i)). split; [right; exists s0, i; rewrite F; auto 10|].
        cbn [set_fs w_fs w_ui]. rewrite F. auto.
      - destruct T as [(A & -> & B)|(s0 & t & i & A & B & -> & [(C & D & ->)|(n & C & D & ->)])]; [exists v; split; [left; rewrite F; auto|auto]| |].
        + exists (set_fs v (add_file (w_fs v) t i)). split; [right; exists s0, t, i; rewrite F; auto 10|]. cbn [set_fs w_fs w_ui]. rewrite F. auto.
        + exists (if n_regular n then set_fs v (set_content (w_fs v) i []) else v). split; [right; exists s0, t, i; rewrite F; do 3 (split; [assumption || reflexivity|]); right; exists n; auto|].
          destruct (n_regular n); cbn [set_fs w_fs w_ui]; rewrite ?F; auto.
      - unfold remove_file in *. destruct (entry_of p) as [s0|]; [|destruct T as [-> ->]; exists v; auto]. rewrite F.
        destruct (f_entries (w_fs w) s0) as [[i|l|]|]; try (destruct T as [-> ->]; exists v; auto; fail);
          (destruct T as [(X & _)|(-> & ->)]; [congruence|]; exists (set_fs v (unlink (w_fs w) s0)); split; [right; auto|auto]).
      - unfold open_stdin in *. rewrite U. destruct (u_input (w_ui w)); destruct T as [T ->]; [|discriminate T]. eexists. split; [split; [exact T|reflexivity]|]. cbn [set_ui w_fs w_ui]. auto.
      - destruct T as [P [lines ->]]. eexists. split; [split; [rewrite F; exact P|exists lines; reflexivity]|]. cbn [set_ui w_fs w_ui]. destruct (Wo wr out v w F U) as [-> ->]. auto.
      - subst w1. eexists. split; [reflexivity|]. apply Wo; assumption.
      - subst w1. exists v. auto.
      - subst w1. eexists. split; [reflexivity|]. apply (Wo WriteStdout); assumption.
      - destruct T as (u & -> & ->). exists (set_ui v u). split; [exists u; rewrite U; auto|auto]. }
    intros S. induction S as [w|e h w w1 w' T S IH|f h w w' [] S IH]; intros v F U; [exists v; split; [constructor|auto]|].
    destruct (St _ _ _ v T F U) as (v1 & T1 & F1 & U1). destruct (IH v1 F1 U1) as (v' & A & B). exists v'. split; [econstructor; eassumption|exact B].
Qed.

(** ** One file is encrypted and removed, alone *)
Local Notation E := (case_names false false).
Definition case_job : list io_stream := [case_stream "notes" "notes.rypt"].
Lemma case_job_separate : separate E case_job.
Proof. intros st st' p q s [<-|[]] [<-|[]] [= <-] [= <-] [= <-]. vm_compute. discriminate. Qed.
Lemma case_job_files : file_to_file case_job.
Proof. intros st p [<-|[]] _. discriminate. Qed.
Lemma case_run : exists h w', crypt_calls toy_lib case_job DeleteFiles false case_enc case_ui (Some (Ok tt)) h (w_ui w') /\ shared E nothing case_world h w' /\
  has_conversion E toy_lib case_enc case_data (w_fs w') (at_ "notes.rypt") /\ f_entries (w_fs w') (num "notes") = None.
Proof.
  destruct (case_one DeleteFiles) as (w' & H & C & D); [discriminate|]. destruct (l_crypt E toy_lib _ _ _ _ _ _ _ H) as (h & T & S).
  exists h, w'. split; [exact T|]. split; [exact S|]. split; [exact C|]. apply D. reflexivity.
Qed.
(** The original is removed, and until then it is as at the start. *)
Lemma case_removal : exists h b p w1 w2 u', crypt_calls toy_lib case_job DeleteFiles false case_enc case_ui (Some (Ok tt)) h u' /\
  happens h b (SRemove p (Ok tt)) /\ E p = Some (num "notes") /\ shared E nothing case_world b w1 /\ takes E (SRemove p (Ok tt)) w1 w2 /\
  intact case_fs (w_fs w1) (num "notes") /\ f_entries (w_fs w2) (num "notes") = None.
Proof.
  destruct case_run as (h & w' & T & S & _ & D). destruct (vanishes _ _ _ _ (num "notes") S) as (b & p & w1 & w2 & Hb & Ep & Sb & Tk & N1 & N2); [discriminate|exact D|].
  exists h, b, p, w1, w2, (w_ui w'). do 5 (split; [assumption|]). split; [|exact N2].
  assert (K : forall c v, (exists a, h = c ++ a) -> shared E nothing case_world c v -> intact case_fs (w_fs v) (num "notes") \/ f_entries (w_fs v) (num "notes") = None).
  { induction c as [|e c IH] using rev_ind; intros v [a Ea] Sv.
    - left. inversion Sv as [x|?|? ? ? ? [] ?]; subst. apply intact_refl.
    - destruct (shared_app _ _ _ _ _ _ Sv) as (v1 & S1 & S2). inversion S2 as [|? ? ? v2 ? Tv Sn|? ? ? ? [] ?]; subst. inversion Sn as [x|?|? ? ? ? [] ?]; subst.
      assert (Al : allowed_step E toy_lib case_job case_enc case_fs (w_fs v1) (w_fs v)).
      { destruct (shared_steps E toy_lib case_job DeleteFiles case_enc case_ui (Some (Ok tt)) _ (w_ui w') case_world toy_lib_ok case_wf_fs case_job_separate case_job_files T) as [St _].
        apply (St c e v1 v); [exists a; rewrite <- app_assoc; reflexivity| |exact Tv]. eapply shared_more; [|exact S1]. intros f g []. }
      destruct (IH v1) as [[I1 I2]|I]; [exists ([e] ++ a); rewrite <- app_assoc; reflexivity|exact S1| |].
      + destruct (Al (num "notes")) as [[J1 J2]|[[J _]|[J _]]]; [|discriminate J|right; exact J].
        left. split; [congruence|]. intros i Ei. rewrite J2; [apply I2, Ei|]. congruence.
      + destruct (Al (num "notes")) as [[J1 J2]|[[J _]|[J _]]]; [|discriminate J|right; exact J]. right. congruence. }
  destruct (K b w1) as [K1|K1]; [|exact Sb|exact K1|contradiction]. destruct Hb as [a ->]. eexists. reflexivity.
Qed.

(** ** The length of small results *)
Lemma case_lengths : exists k : nat, forall b c, is_conversion toy_lib case_enc b c -> (length b < 1000)%nat -> length c = (k + length b)%nat.
Proof.
  destruct case_header as (ser0 & cod0 & chunk0 & E0 & L0). exists (length (frame_of ser0) + 16)%nat.
  intros b c (er & src & room & fl & snk & Hr & _ & Fb & C & ->) Lb. cbn [conversion case_enc case_cred] in C.
  change (encrypt_stream toy_lib case_opts er src (mkSink [] room fl false) (Ok tt) snk) in C.
  assert (K : forall x, encrypt_header toy_lib case_opts er = x -> exists ser cod chunk, x = Ok (ser, cod, chunk)).
  { intros x Ex. unfold encrypt_stream in C. rewrite Ex in C. destruct x as [[[ser cod] chunk]|e|]; [eauto|destruct C as [C _]; discriminate C..]. }
  destruct (K _ eq_refl) as (ser & cod & chunk & Eh). clear K.
  destruct (encrypt_stream_ok toy_lib case_opts er ser cod chunk toy_lib_ok Hr Eh _ _ _ C) as (_ & Ho & _). rewrite Ho. cbn [w_out app].
  assert (Ls : length ser = length ser0).
  { destruct (header_shape toy_lib toy_lib case_opts case_opts some_random er ser0 cod0 chunk0 ser cod chunk) as (h & h' & -> & -> & _ & _ & Re & _);
      auto using toy_lib_ok, some_random_ok, case_wf_cred, same_shape_refl. symmetry. apply redact_length, Re. }
  pose proof (c_pos toy_lib case_opts er ser cod chunk Hr Eh) as Cp. pose proof (c_64 toy_lib case_opts er ser cod chunk Hr Eh) as C6.
  destruct (cod_parts toy_lib case_opts er ser cod chunk toy_lib_ok Eh) as (Ok & En & _).
  rewrite app_length. rewrite enc_size, chunks_count by assumption. rewrite Fb.
  assert (Cb : (1000 < N.to_nat chunk)%nat).
  { destruct Hr as [Hr _]. destruct (encrypt_header_inv _ _ _ _ _ _ Eh) as (? & ? & ? & ? & _ & Hc & _ & _ & _ & ->). destruct (chosen_bounds er Hr) as (A & B). lia. }
  assert (D : Nat.max 1 ((length b + N.to_nat chunk - 1) / N.to_nat chunk) = 1%nat).
  { assert ((length b + N.to_nat chunk - 1) / N.to_nat chunk < 2)%nat; [|lia]. apply Nat.div_lt_upper_bound; lia. }
  rewrite D. unfold frame_of. rewrite !app_length, !repeat_length, !le_bytes_length. unfold lenN. rewrite Ls. lia.
Qed.

(** ** Another process replaces the original between the encryption and the removal *)
Definition case_newer : bytes := [x62; x79; x65].
Lemma case_replaced : exists h b p w1 f w2 u', crypt_calls toy_lib case_job DeleteFiles false case_enc case_ui (Some (Ok tt)) h u' /\
  happens h b (SRemove p (Ok tt)) /\ shared E nothing case_world b w1 /\ takes E (SRemove p (Ok tt)) (set_fs w1 f) w2 /\
  (forall s, s <> num "notes" -> intact (w_fs w1) f s) /\ plain_file f (num "notes") case_newer /\ f_entries (w_fs w2) (num "notes") = None /\
  ~ allowed_step E toy_lib case_job case_enc case_fs f (w_fs w2).
Proof.
  destruct case_removal as (h & b & p & w1 & w2 & u' & T & Hb & Ep & Sb & Tk & I1 & N2).
  destruct (alone_spacious _ _ _ _ Sb case_spacious []) as (j & [U1 U2] & _).
  set (f := mkFs (update (f_entries (w_fs w1)) (num "notes") (Some (EFile j))) (update (f_nodes (w_fs w1)) j (Some (mkNode true case_newer 1)))).
  assert (Fn : f_entries f (num "notes") = Some (EFile j)) by reflexivity.
  exists h, b, p, w1, f, (set_fs (set_fs w1 f) (unlink f (num "notes"))), u'. split; [exact T|]. split; [exact Hb|]. split; [exact Sb|].
  assert (Fo : forall s, s <> num "notes" -> intact (w_fs w1) f s).
  { intros s Ns. split; unfold f; cbn [f_entries f_nodes]; unfold update.
    - destruct (N.eqb_spec s (num "notes")); [contradiction|reflexivity].
    - intros i Ei. destruct (N.eqb_spec i j) as [->|]; [destruct (U2 _ Ei)|reflexivity]. }
  assert (Pn : plain_file f (num "notes") case_newer).
  { exists j. split; [exact Fn|]. unfold f. cbn [f_nodes]. unfold update. rewrite N.eqb_refl. reflexivity. }
  split; [|split; [exact Fo|]; split; [exact Pn|]; split; [reflexivity|]].
  - cbn [takes]. unfold remove_file. rewrite Ep. cbn [set_fs w_fs]. rewrite Fn. right. split; reflexivity.
  - intros Al. cbn [set_fs w_fs] in Al.
    assert (G1 : f_entries (unlink f (num "notes")) (num "notes") = None) by reflexivity.
    destruct (Al (num "notes")) as [[J _]|[[J _]|(_ & st & q & b0 & [<-|[]] & (p0 & _ & _ & Eq) & Pb & (t & c & Et & Pc & Ic))]]; [congruence|discriminate J|]. injection Eq as <-.
    assert (t = num "notes.rypt") as -> by (vm_compute in Et; injection Et as <-; reflexivity).
    assert (b0 = case_newer) as -> by (eapply plain_unique; eassumption).
    destruct (shared_steps E toy_lib case_job DeleteFiles case_enc case_ui (Some (Ok tt)) _ u' case_world toy_lib_ok case_wf_fs case_job_separate case_job_files T) as [St _].
    assert (Al' : allowed_step E toy_lib case_job case_enc case_fs (w_fs w1) (w_fs w2)).
    { apply (St _ _ w1 w2 Hb); [|exact Tk]. eapply shared_more; [|exact Sb]. intros ? ? []. }
    destruct I1 as [I1 I2]. destruct (Al' (num "notes")) as [[J _]|[[J _]|(_ & st & q & b0 & [<-|[]] & (p1 & _ & _ & Eq) & Pb' & (t & c' & Et' & Pc' & Ic'))]]; [rewrite N2, I1 in J; discriminate J|discriminate J|].
    injection Eq as <-. assert (t = num "notes.rypt") as -> by (vm_compute in Et'; injection Et' as <-; reflexivity).
    assert (b0 = case_data) as ->.
    { destruct Pb' as (i & P1 & P2). rewrite I1 in P1. change (f_entries case_fs (num "notes")) with (Some (EFile 1)) in P1. injection P1 as <-. rewrite (I2 1 eq_refl) in P2. injection P2 as <-. reflexivity. }
    assert (c' = c) as ->.
    { assert (W2 : w_fs w2 = unlink (w_fs w1) (num "notes")).
      { cbn [takes] in Tk. unfold remove_file in Tk. rewrite Ep, I1 in Tk. change (f_entries case_fs (num "notes")) with (Some (EFile 1)) in Tk. destruct Tk as [(_ & X & _)|(_ & ->)]; [discriminate X|reflexivity]. }
      rewrite W2 in Pc'. destruct Pc as (k & K1 & K2). destruct Pc' as (k' & K1' & K2').
      change (f_entries (unlink f (num "notes")) (num "notes.rypt")) with (f_entries (w_fs w1) (num "notes.rypt")) in K1.
      change (f_entries (unlink (w_fs w1) (num "notes")) (num "notes.rypt")) with (f_entries (w_fs w1) (num "notes.rypt")) in K1'.
      assert (k' = k) as -> by congruence.
      assert (Dj : k <> j) by (intros ->; exact (U2 _ K1)).
      unfold unlink in K2. rewrite Fn in K2. cbn [f_nodes] in K2. unfold f in K2. cbn [f_nodes] in K2. unfold update in K2. rewrite N.eqb_refl in K2. destruct (N.eqb_spec k j); [contradiction|].
      unfold unlink in K2'. rewrite I1 in K2'. change (f_entries case_fs (num "notes")) with (Some (EFile 1)) in K2'. cbn [f_nodes] in K2'. rewrite (I2 1 eq_refl) in K2'.
      change (f_nodes case_fs 1) with (Some (mkNode true case_data 1)) in K2'. cbn [f_nodes n_links] in K2'. unfold update in K2'. destruct (k =? 1); [discriminate K2'|]. congruence. }
    destruct case_lengths as (k & Lk). pose proof (Lk _ _ Ic ltac:(cbn; lia)) as L1. pose proof (Lk _ _ Ic' ltac:(cbn; lia)) as L2. cbn in L1, L2. lia.
Qed.

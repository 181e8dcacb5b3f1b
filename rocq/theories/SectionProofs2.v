(** Proofs about how the terminal output of a run is divided (C85): key pairs, and the whole program. *)
From Coq.Strings Require Import Byte String.
From Coq Require Import List NArith ZArith Bool Permutation Lia.
From Verif Require Import Base BaseFacts Text Util UtilSpec UtilProofs UtilProofs2 CliErrors Getopts Crypto HeaderCrypto KeyFiles KeyProofs Io FileCrypto Ui UiSpec UiProofs2 CliCreds Paths Cli Fs Commands PathSpec OptSpec OptProofs CmdProofs PathProofs CmdSpec CredSpec FsSpec FsProofs FsProofs2 FsProofs3 FsProofs4 FsProofs5 ShowSpec ShowProofs ShowProofs2 QuietSpec QuietProofs QuietProofs2 QuietProofs3 SectionSpec SectionProofs.
Import ListNotations.
Local Open Scope N_scope.

(** ** The public key *)
Lemma digit_visible u d : d < 16 -> is_whitespace (digit u d) = false.
Proof.
  intros H. assert (In d (map N.of_nat (seq 0 16))).
  { apply in_map_iff. exists (N.to_nat d). split; [lia|]. apply in_seq. lia. }
  cbn [map seq N.of_nat Pos.of_succ_nat Pos.succ] in *. destruct u; repeat (destruct H0 as [<-|H0]; [reflexivity|]); destruct H0.
Qed.
Lemma trim_start_visible t : (forall c, In c t -> is_whitespace c = false) -> trim_start t = t.
Proof. destruct t as [|c t]; [reflexivity|]. intros H. cbn [trim_start]. rewrite (H c (or_introl eq_refl)). reflexivity. Qed.
Lemma trim_key t b : hex_of t b -> trim (t ++ [10]) = t.
Proof.
  intros H. assert (V : forall c, In c t -> is_whitespace c = false).
  { induction H as [|u v t x b H IH]; [intros c []|]. pose proof (b2n_bound x) as L.
    intros c [<-|[<-|Hc]]; [apply digit_visible; apply N.div_lt_upper_bound; lia|apply digit_visible, N.mod_lt; lia|apply IH, Hc]. }
  unfold trim. destruct t as [|c t]; [reflexivity|]. cbn [app trim_start]. rewrite (V c (or_introl eq_refl)).
  change (c :: t ++ [10]) with ((c :: t) ++ [10]). rewrite rev_app_distr. cbn [rev app trim_start].
  change (rev t ++ [c]) with (rev (c :: t)). rewrite trim_start_visible; [apply rev_involutive|]. intros d Hd. apply V, in_rev, Hd.
Qed.

Section WithEnvironment.
Variable entry_of : names.
Variable lib : crypto_lib.
Variable sha512 : bytes -> bytes.
Hypothesis sha_some : forall b, sha512 b <> [].

Definition pair_lines (ks : key_streams) : list message :=
  match k_public ks with Some p => [MLine (lit "    Public key file: " ++ path_text p)] | None => [] end.
Lemma prints_write wr t (Q : _ -> _ -> Prop) : (forall r, Q r []) -> prints (write_text entry_of wr t) Q.
Proof. apply prints_silent; [apply tells_write|apply gentle_write]. Qed.
Lemma prints_pair ks force a b : prints (write_pair entry_of ks force a b) (fun r l =>
  l = pair_lines ks ++ [MLine (lit "    Private key file: " ++ output_path (k_private ks))] \/ (k_public ks <> None /\ l = pair_lines ks /\ forall u, r <> Ok u)).
Proof.
  unfold write_pair, pair_lines. apply prints_bind.
  set (Rest := fun (r : outcome cerr unit) (pre : list message) => match r with Ok _ => _ | Err e => _ | Panic => _ end).
  assert (R : forall u, Rest (Ok u) (pair_lines ks)).
  { intros u. unfold Rest. apply prints_bind, prints_line. apply prints_bind, prints_silent; [apply tells_open_output|apply gentle_open_output|].
    intros [wr|e|]; [|left; reflexivity..]. apply prints_write. intros r. left. reflexivity. }
  unfold pair_lines in R. destruct (k_public ks) as [p|].
  - apply prints_bind, prints_line. apply prints_bind, prints_silent; [apply tells_open_output|apply gentle_open_output|].
    intros [wr|e|]; [|right; repeat split; discriminate..]. apply prints_write. intros [u|e|]; [apply R|right; repeat split; discriminate..].
  - apply prints_ret, (R tt).
Qed.

Lemma prints_generate_all cs streams force n : forall k, prints (generate_all entry_of sha512 k n cs streams force)
  (fun r l => (forall e, r <> Err e) /\ forall es, r = Ok es -> exists parts, length parts = length streams /\
     (forall i ks part, nth_error streams i = Some ks -> nth_error parts i = Some part ->
        exists seed, key_section (k + i) n ks (checksummed_text (sha512 (fst (cs_keypair cs seed))) (fst (cs_keypair cs seed))) (fst part) (snd part)) /\
     es = failures parts /\ l = concat (map snd parts)).
Proof.
  induction streams as [|ks streams IH]; intros k; cbn [generate_all].
  - apply prints_ret. split; [discriminate|]. intros es [= <-]. exists []. split; [reflexivity|]. split; [|split; reflexivity]. intros [|i] s part E; discriminate E.
  - apply prints_bind. apply (prints_and _ (fun r => exists seed, r = Ok (cs_keypair cs seed))); [intros w r w' [_ H]; exact H|].
    apply prints_silent; [apply tells_still; intros w r w' (-> & seed & ->); split; [reflexivity|discriminate]|apply gentle_still; intros w r w' (-> & _); reflexivity|].
    intros r (seed & ->). destruct (cs_keypair cs seed) as [pk sk] eqn:Ek. apply prints_bind, prints_lift. unfold key_pair_texts, bind, assert.
    destruct (bytes_eqb _ _); [|split; discriminate].
    apply prints_bind, prints_line. apply prints_bind, prints_line. apply prints_bind, prints_try.
    eapply prints_weaken; [apply prints_pair|]. intros r shown Hs.
    assert (T : trim (to_hex_string_checksummed sha512 pk ++ [10]) = checksummed_text (sha512 pk) pk).
    { rewrite (trim_key _ pk); [apply checksummed_model, sha_some|apply written_spells, sha_some]. }
    rewrite T. clear T.
    assert (Go : forall failure, (length failure <= 1)%nat -> (failure = [] -> exists u, r = Ok u) ->
      prints (let! _ := io_ui (ui_println 0 []) in let! errors' := generate_all entry_of sha512 (S k) n cs streams force in
              io_ret (failure ++ errors'))
        (fun r l => (forall e, r <> Err e) /\ forall es, r = Ok es -> exists parts, length parts = length (ks :: streams) /\
           (forall i ks' part, nth_error (ks :: streams) i = Some ks' -> nth_error parts i = Some part ->
              exists seed, key_section (k + i) n ks' (checksummed_text (sha512 (fst (cs_keypair cs seed))) (fst (cs_keypair cs seed))) (fst part) (snd part)) /\
           es = failures parts /\
           (MLine (keypair_header k n) :: MLine (lit "    Public key: " ++ checksummed_text (sha512 pk) pk) :: shown ++ map MError failure) ++ l = concat (map snd parts))).
    { intros failure Hn Hf. apply prints_bind, prints_line. apply prints_bind. eapply prints_weaken; [apply (IH (S k))|]. intros r' l [Ne Hl].
      destruct r' as [es'|e|]; [|destruct (Ne e eq_refl)|split; discriminate]. apply prints_ret. split; [discriminate|]. intros es [= <-].
      destruct (Hl _ eq_refl) as (parts & Len & Hp & -> & ->).
      exists ((failure, MLine (keypair_header k n) :: MLine (lit "    Public key: " ++ checksummed_text (sha512 pk) pk) :: shown ++ map MError failure ++ [MLine []]) :: parts).
      split; [cbn [length]; rewrite Len; reflexivity|]. split; [|split; [cbn [failures flat_map fst]; rewrite firstn_all2 by exact Hn; reflexivity|cbn [map snd concat app]; rewrite !app_nil_r, <- !app_assoc; reflexivity]].
      intros [|i] ks' p'; cbn [nth_error].
      + intros [= <-] [= <-]. exists seed. rewrite Ek, Nat.add_0_r. cbn [fst snd]. split; [exact Hn|]. exists (dec (N.of_nat k + 1)), (dec (N.of_nat n)), (output_path (k_private ks)).
        split; [apply dec_spec|]. split; [apply dec_spec|]. split; [destruct (k_private ks); reflexivity|]. cbv zeta. exists shown. split; [reflexivity|].
        destruct Hs as [->|(N & -> & NO)]; [left; reflexivity|]. right. split; [|split; [exact N|reflexivity]]. intros E. destruct (Hf E) as (u & ->). destruct (NO u eq_refl).
      + intros E1 E2. replace (k + S i)%nat with (S k + i)%nat by lia. apply Hp; assumption. }
    destruct r as [u|e|]; [| |split; discriminate].
    + apply prints_bind, prints_ret. eapply prints_weaken; [exact (Go [] ltac:(cbn; lia) (fun _ => ex_intro _ u eq_refl))|]. cbv beta iota. intros r l. cbn [app]. rewrite <- ?app_assoc, ?app_nil_r. cbn [app]. exact (fun H => H).
    + apply prints_bind, prints_bind, prints_error, prints_ret. eapply prints_weaken; [exact (Go [e] ltac:(cbn; lia) ltac:(discriminate))|]. cbv beta iota. intros r l. cbn [app]. rewrite <- ?app_assoc, ?app_nil_r. cbn [app]. exact (fun H => H).
Qed.

Lemma prints_generate streams force cs : lib ChaCha20Poly1305Ietf = Some cs -> prints (generate_key_pair_files entry_of lib sha512 streams force)
  (fun r l => r <> Panic -> exists parts, length parts = length streams /\
     (forall i ks part, nth_error streams i = Some ks -> nth_error parts i = Some part ->
        exists seed, key_section i (length streams) ks (checksummed_text (sha512 (fst (cs_keypair cs seed))) (fst (cs_keypair cs seed))) (fst part) (snd part)) /\
     l = concat (map snd parts) /\ r = match failures parts with [] => Ok tt | _ => Err CComposite end).
Proof.
  intros L. unfold generate_key_pair_files. rewrite L. apply prints_bind, prints_lift. apply prints_bind. eapply prints_weaken; [apply prints_generate_all|].
  intros r l [Ne Hl]. destruct r as [es|e|]; [|destruct (Ne e eq_refl)|intros N; congruence].
  destruct (Hl _ eq_refl) as (parts & Len & Hp & -> & ->). apply prints_lift. intros _. exists parts. split; [exact Len|]. split; [exact Hp|].
  cbn [app]. rewrite app_nil_r. split; reflexivity.
Qed.

(** ** Being told to be verbose *)
Variable files : text -> option bytes.
Lemma line_range args tin tout terr occs free u c u' : parse_options args = Ok (mkMatches occs free) ->
  parse_command_line sha512 files args tin tout terr u = (Ok c, u') -> (-2 <= quietness occs <= 2)%Z.
Proof.
  intros P H. unfold parse_command_line in H. unfold bind_act at 1, lift at 1 in H. rewrite P in H. cbv zeta in H.
  assert (V : (Z.of_N (opt_count (mkMatches occs free) OVerbose) - Z.of_N (opt_count (mkMatches occs free) OQuiet) = - quietness occs)%Z) by (rewrite !times_count; unfold quietness; lia).
  rewrite V in H. unfold bind_act at 1, ensure_act at 1, ensure, lift at 1 in H.
  destruct ((-2 <=? - quietness occs)%Z && (- quietness occs <=? 2)%Z) eqn:E; [|discriminate H]. apply andb_prop in E as [E1 E2]. apply Z.leb_le in E1, E2. lia.
Qed.
Lemma line_fine_crypt args tin tout terr occs free u streams policy force d u' : means 0 args occs free ->
  (quietness occs < 0)%Z \/ quietness occs = 0%Z /\ tin = true /\ tout = true /\ terr = true -> u_room u = None ->
  parse_command_line sha512 files args tin tout terr u = (Ok (CryptStreams streams policy force d), u') -> fine u'.
Proof.
  intros M Q R H. destruct (command_line_inv _ _ _ _ _ _ _ _ _ H) as (m & P & _). pose proof (means_is _ _ _ _ M P) as ->.
  pose proof (line_range _ _ _ _ _ _ _ _ _ P H) as Rg.
  destruct (line_cases sha512 files _ _ _ _ _ _ _ _ _ P Rg H) as [(_ & [(e & X)|[(_ & ks & f & X)|[X|X]]])|(st & d' & fo & v & pe & _ & [Al _] & Ev)]; try discriminate X.
  apply (alike_fine _ _ Al). split; [exact R|]. cbn [set_progress_enabled set_verbosity u_verbosity]. rewrite Ev. destruct Q as [Q|(Q & -> & -> & ->)].
  - destruct (Z.eqb_spec (quietness occs) 0); lia.
  - rewrite Q. cbn. lia.
Qed.
Lemma line_fine_keys args tin tout terr occs free u streams force u' : means 0 args occs free -> (quietness occs <= 0)%Z -> u_room u = None ->
  parse_command_line sha512 files args tin tout terr u = (Ok (GenerateKeyPair streams force), u') -> fine u' /\ u_trace u' = u_trace u.
Proof.
  intros M Q R H. destruct (command_line_inv _ _ _ _ _ _ _ _ _ H) as (m & P & Pf & _). pose proof (means_is _ _ _ _ M P) as ->.
  pose proof (line_range _ _ _ _ _ _ _ _ _ P H) as Rg.
  assert (u' = set_verbosity u (- quietness occs)%Z) as ->; [|split; [split; [exact R|cbn; lia]|reflexivity]].
  unfold parse_command_line in H. unfold bind_act at 1, lift at 1 in H. rewrite P in H. cbv zeta in H.
  assert (V : (Z.of_N (opt_count (mkMatches occs free) OVerbose) - Z.of_N (opt_count (mkMatches occs free) OQuiet) = - quietness occs)%Z) by (rewrite !times_count; unfold quietness; lia).
  rewrite V in H. unfold bind_act at 1, ensure_act at 1, ensure, lift at 1 in H.
  destruct ((-2 <=? - quietness occs)%Z && (- quietness occs <=? 2)%Z); [|discriminate H]. unfold bind_act at 1 in H.
  destruct (if match args with [] => true | _ => false end && tout then MHelp else get_mode (mkMatches occs free)) as [[]| | |]; try contradiction Pf.
  unfold bind_act, lift, ret in H. destruct (get_keypair_streams (mkMatches occs free)) as [ks|e|]; [|discriminate H..]. injection H as _ _ <-. reflexivity.
Qed.

Lemma no_failures parts : failures parts = [] <-> forall part, In part parts -> fst part = [].
Proof.
  split.
  - intros E part Hi. destruct (fst part) as [|e l] eqn:Ef; [reflexivity|]. assert (In e (failures parts)) as B; [|rewrite E in B; destruct B].
    apply in_flat_map. exists part. split; [exact Hi|]. rewrite Ef. left. reflexivity.
  - intros E. unfold failures. induction parts as [|part parts IH]; [reflexivity|]. cbn [flat_map]. rewrite (E part (or_introl eq_refl)). apply IH. intros q Hq. apply E. right. exact Hq.
Qed.
Lemma some_failure parts : failures parts <> [] -> exists part, In part parts /\ fst part <> [].
Proof.
  intros E. destruct (failures parts) as [|e l] eqn:Ef; [destruct (E eq_refl)|]. assert (In e (failures parts)) as B by (rewrite Ef; left; reflexivity).
  apply in_flat_map in B as (part & Hi & He). exists part. split; [exact Hi|]. destruct (fst part); [destruct He|discriminate].
Qed.
Lemma in_cleanups streams parts p : In p (cleanups streams parts) <->
  exists i s part, nth_error streams i = Some s /\ nth_error parts i = Some part /\ s_input s = IFile p /\ fst part = [].
Proof.
  revert parts. induction streams as [|s ss IH]; intros [|part parts].
  1-3: split; [intros []|intros ([|i] & s' & part' & A & B & _); cbn in A, B; discriminate].
  change (cleanups (s :: ss) (part :: parts)) with (match fst part with [] => input_cleanup (s_input s) | _ => [] end ++ cleanups ss parts).
  rewrite in_app_iff, IH. split.
  - intros [I|(i & s' & part' & A & B & C)].
    + destruct (fst part) eqn:E; [|destruct I]. destruct (s_input s) eqn:Es; try destruct I as [<-|[]]; [|destruct I..].
      exists 0%nat, s, part. auto.
    + exists (S i), s', part'. auto.
  - intros ([|i] & s' & part' & A & B & C & D); cbn [nth_error] in A, B.
    + injection A as <-. injection B as <-. left. rewrite D, C. left. reflexivity.
    + right. exists i, s', part'. auto.
Qed.

Lemma distinct_nth streams : distinct_outputs entry_of streams -> forall i j s s' q q' t, i <> j -> nth_error streams i = Some s -> nth_error streams j = Some s' ->
  s_output s = Ok (OFile q) -> s_output s' = Ok (OFile q') -> entry_of q = Some t -> entry_of q' <> Some t.
Proof.
  induction streams as [|x l IH]; intros D i j s s' q q' t Ne Ei Ej Eo Eo' Et; [destruct i; discriminate Ei|].
  destruct (distinct_cons _ _ _ D) as [D1 D2]. destruct i as [|i], j as [|j]; cbn [nth_error] in Ei, Ej.
  - destruct (Ne eq_refl).
  - injection Ei as ->. apply nth_error_In in Ej. eapply D2; eassumption.
  - injection Ej as ->. apply nth_error_In in Ei. intros Et'. exact (D2 s q' q t Ei Eo' Eo Et' Et).
  - eapply (IH D1 i j); try eassumption. congruence.
Qed.
Lemma says_truth streams d w w1 w' parts : lib_ok lib -> wf_fs (w_fs w) ->
  (forall i s part, nth_error streams i = Some s -> nth_error parts i = Some part -> exists w2 w3, round entry_of lib false d 0 (length streams) streams w w1 i s part w2 w3) ->
  process entry_of lib 0 (length streams) streams false d w (Ok (cleanups streams parts, failures parts)) w1 ->
  same_files w1 w' \/ (exists w2, same_files w1 w2 /\ remove_all entry_of (cleanups streams parts) false w2 (Ok tt) w') ->
  truthful entry_of lib streams d parts w w'.
Proof.
  intros Hl W Rd P E. destruct (process_spec entry_of lib Hl _ _ _ _ _ P) as (G & _ & _ & C). specialize (C _ _ eq_refl). clear P.
  assert (Rm : removed (entries entry_of (cleanups streams parts)) (w_fs w1) (w_fs w')).
  { destruct E as [Q|(w2 & Q & Hr)]; [rewrite (proj1 Q); apply removed_refl|].
    assert (Hp : forall s, In s (entries entry_of (cleanups streams parts)) -> exists b, plain_file (w_fs w1) s b).
    { intros s I. apply in_entries in I as (p & I & Ep). destruct (came_to_cbs _ _ _ _ _ _ _ _ C p I) as (st & s' & b & _ & _ & Es & P & _). exists b. congruence. }
    destruct (remove_all_spec entry_of false _ (w_fs w1) Hp (cleanups streams parts) w2 (Ok tt) w') as (_ & R & _); [| | | |exact R].
    - intros p s I Es. apply in_entries. eauto.
    - exact Hr.
    - rewrite (proj1 Q). apply (g_wf _ _ G), W.
    - rewrite (proj1 Q). apply removed_refl. }
  clear E C. intros i s part Es Ep. destruct (Rd i s part Es Ep) as (w2 & w3 & [_ (x & St & ->) Rf Bf Af]). specialize (Rf Hl eq_refl). destruct (Bf Hl eq_refl) as [G1 N1]. destruct (Af Hl eq_refl) as [G2 N2].
  destruct (step_spec_full entry_of lib Hl _ _ _ _ _ St) as (G3 & _ & K). split; [|split].
  - intros F. rewrite F in K. destruct K as [K|[(_ & _ & [(_ & K)|(q & t & b & Eo & Et & En & Rb & Hc)])|(e & K & _)]]; [discriminate K|left; exact K| |discriminate K].
    right. exists q, t, b. split; [exact Eo|]. split; [exact Et|]. split; [|split].
    + destruct (f_entries (w_fs w) t) eqn:Ew; [|reflexivity]. destruct (g_now _ _ G1 t) as [B _]; congruence.
    + intros Sep. apply (has_extends entry_of lib _ _ _ (w_fs w1)) in Hc; [|apply (g_now _ _ G2)].
      destruct Hc as (t' & c & Et' & (k & P1 & P2) & Ic). exists t', c. split; [exact Et'|]. split; [|exact Ic].
      destruct (proj1 Rm t') as [[J1 J2]|[J1 _]]; [exists k; split; [congruence|rewrite J2; assumption]|].
      exfalso. apply in_entries in J1 as (p' & J1 & Ep2). apply in_cleanups in J1 as (j & s' & part' & A1 & _ & A3 & _). apply nth_error_In in A1, Es.
      eapply Sep; [exact A1|exact Es|exact A3|exact Eo|exact Ep2|exact Et'].
    + intros p Ei. destruct (Rb p Ei) as (y & Ey & Py). exists y. split; [exact Ey|]. intros Ny.
      destruct (g_now _ _ G1 y Ny) as [B1 B2]. destruct Py as (k & P1 & P2). exists k. split; [congruence|]. rewrite <- B2; [exact P2|congruence].
  - intros F p y Ei Ey Ny. destruct (g_now _ _ G y Ny) as [B1 B2]. destruct (proj1 Rm y) as [[J1 J2]|[J1 _]].
    + left. split; [congruence|]. intros k Ek. rewrite J2; [apply B2, Ek|congruence].
    + right. apply in_entries in J1 as (p' & J1 & Ep2). apply in_cleanups in J1 as (j & s' & part' & A1 & A2 & A3 & A4). exists j, s', part', p'.
      split; [intros ->; apply F; congruence|auto].
  - intros F D q t Eo Et En. specialize (Rf ltac:(lia)). destruct (fst part) as [|e l]; [discriminate F|]. destruct K as [K|[(K & _)|(e' & _ & K)]]; [discriminate K..|].
    destruct K as [K|(q' & t' & _ & _ & _ & K)]; [|exfalso; rewrite K in Rf; assert (length (t' :: w_refused w2) = length (w_refused w2)) as Z by congruence; cbn in Z; lia].
    assert (O : forall P : Prop, (exists j s' q', j <> i /\ nth_error streams j = Some s' /\ s_output s' = Ok (OFile q') /\ entry_of q' = Some t) -> P).
    { intros P' (j & s' & q' & Nj & Ej & Eo' & Et'). destruct (distinct_nth _ D i j s s' q q' t (fun e => Nj (eq_sym e)) Es Ej Eo Eo' Et Et'). }
    destruct (f_entries (w_fs w') t) eqn:X; [|reflexivity]. exfalso. assert (X1 : f_entries (w_fs w1) t <> None) by (apply (proj2 Rm); congruence).
    destruct (N2 t X1) as [X2|X2]; [|apply O, X2]. rewrite (proj1 K) in X2. destruct (N1 t X2) as [X3|X3]; [congruence|apply O, X3].
Qed.

Lemma main_crypt_sections args tin tout terr w status w' streams policy force d u : fine u ->
  parse_command_line sha512 files args tin tout terr (w_ui w) = (Ok (CryptStreams streams policy force d), u) ->
  main entry_of lib sha512 files args tin tout terr w status w' -> status <> 101 ->
  exists tr parts tail, u_trace (w_ui w') = u_trace u ++ tr /\ printed tr = concat (map snd parts) ++ tail /\ length parts = length streams /\
     (forall i s part, nth_error streams i = Some s -> nth_error parts i = Some part -> section force i (length streams) s (fst part) (snd part)) /\
     (lib_ok lib -> wf_fs (w_fs w) -> force = false -> truthful entry_of lib streams d parts w w') /\
     Forall closing tail /\ (policy = DeleteFiles -> Forall is_error tail) /\ (policy = KeepFiles -> tail = []) /\
     ((forall i s p part, nth_error streams i = Some s -> nth_error parts i = Some part -> s_input s = IFile p -> fst part <> []) -> tail = []) /\
     (status = 0 -> forall part, In part parts -> fst part = []) /\
     (tail = [] -> status <> 0 -> exists part, In part parts /\ fst part <> []).
Proof.
  intros F L (r & w1 & H & Hs) N. destruct H as [(c & wm & [Hc ->] & H)|[(e & [Hc _] & _)|([Hc _] & _)]]; [|rewrite L in Hc; discriminate Hc..].
  rewrite L in *. cbn [fst snd] in Hc, H. injection Hc as ->. cbn [run_command] in H.
  assert (NP : r <> Panic) by (intros ->; destruct Hs; congruence).
  destruct (crypt_says entry_of lib streams policy force d (set_ui w u) _ _ F H NP) as (parts & tail & wp & Len & (F1 & tr & Et & Ep) & Rd & P & E & (C1 & C2 & C3) & R1 & R2 & R3). cbn [set_ui w_ui] in Et.
  assert (Hp : forall i s part, nth_error streams i = Some s -> nth_error parts i = Some part -> section force i (length streams) s (fst part) (snd part)).
  { intros i s part Es Eq. destruct (Rd i s part Es Eq) as (? & ? & [S _ _ _ _]). exact S. }
  assert (Cv : (forall i s p part, nth_error streams i = Some s -> nth_error parts i = Some part -> s_input s = IFile p -> fst part <> []) -> cleanups streams parts = []).
  { intros Hn. destruct (cleanups streams parts) as [|p ps] eqn:Ec; [reflexivity|]. assert (In p (cleanups streams parts)) as B by (rewrite Ec; left; reflexivity).
    apply in_cleanups in B as (i & s & part & A1 & A2 & A3 & A4). destruct (Hn _ _ _ _ A1 A2 A3 A4). }
  assert (T : lib_ok lib -> wf_fs (w_fs w) -> force = false -> truthful entry_of lib streams d parts w w1).
  { intros Hl W ->. exact (says_truth streams d (set_ui w u) wp w1 parts Hl W Rd P E). }
  clear P E Rd.
  pose proof (no_failures parts) as [NF _]. pose proof (some_failure parts) as FN.
  destruct r as [[]|e|]; [| |congruence].
  - destruct Hs as [-> ->]. exists tr, parts, tail. do 5 (split; [assumption|]). repeat (split; [auto|]). congruence.
  - assert (K : status = 1 /\ (e = CComposite /\ w' = w1 \/ e <> CComposite /\ w' = set_ui w1 (snd (print_error e (w_ui w1))))).
    { destruct e; destruct Hs as [-> ->]; (split; [reflexivity|]); (left; split; reflexivity) || (right; split; [discriminate|reflexivity]). }
    destruct K as [-> [[-> ->]|[Ne ->]]].
    + exists tr, parts, tail. do 5 (split; [assumption|]). repeat (split; [auto; discriminate|]). auto.
    + destruct (R3 e eq_refl Ne) as [-> Cn]. rewrite (fine_error _ _ F1). exists (tr ++ [Printed (MError e)]), parts, (tail ++ [MError e]).
      cbn [set_ui w_ui snd log u_trace]. split; [rewrite Et; symmetry; apply app_assoc|]. split; [rewrite printed_app, Ep, <- app_assoc; reflexivity|].
      split; [exact Len|]. split; [exact Hp|]. split; [exact T|]. split; [apply Forall_app; split; [exact C1|]; constructor; [right; right; exists e; reflexivity|constructor]|].
      split; [discriminate|]. split; [discriminate|]. split; [intros X'; destruct (Cn (Cv X'))|]. split; [discriminate|]. intros E. destruct tail; discriminate E.
Qed.

Lemma main_key_sections args tin tout terr w status w' streams force u cs : fine u -> lib ChaCha20Poly1305Ietf = Some cs ->
  parse_command_line sha512 files args tin tout terr (w_ui w) = (Ok (GenerateKeyPair streams force), u) ->
  main entry_of lib sha512 files args tin tout terr w status w' -> status <> 101 ->
  exists tr parts, u_trace (w_ui w') = u_trace u ++ tr /\ printed tr = concat (map snd parts) /\ length parts = length streams /\
     (forall i ks part, nth_error streams i = Some ks -> nth_error parts i = Some part ->
        exists seed, key_section i (length streams) ks (checksummed_text (sha512 (fst (cs_keypair cs seed))) (fst (cs_keypair cs seed))) (fst part) (snd part)) /\
     (status = 0 <-> forall part, In part parts -> fst part = []).
Proof.
  intros F Ll L (r & w1 & H & Hs) N. destruct H as [(c & wm & [Hc ->] & H)|[(e & [Hc _] & _)|([Hc _] & _)]]; [|rewrite L in Hc; discriminate Hc..].
  rewrite L in *. cbn [fst snd] in Hc, H. injection Hc as ->. cbn [run_command] in H.
  destruct (prints_generate streams force cs Ll (set_ui w u) _ _ F H) as (l & ((F1 & tr & Et & Ep) & X)). cbn [set_ui w_ui] in Et.
  assert (NP : r <> Panic) by (intros ->; destruct Hs; congruence). destruct (X NP) as (parts & Len & Hp & -> & ->).
  exists tr, parts.
  assert (w' = w1 /\ (status = 0 <-> failures parts = [])) as [-> Hz].
  { destruct (failures parts); destruct Hs as [-> ->]; (split; [reflexivity|]); split; congruence. }
  split; [exact Et|]. split; [exact Ep|]. split; [exact Len|]. split; [exact Hp|]. rewrite Hz. apply no_failures.
Qed.
End WithEnvironment.

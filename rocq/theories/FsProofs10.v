(** Proofs about streams without files, directories, and whole command lines. *)
From Coq.Strings Require Import Byte String.
From Coq Require Import List NArith ZArith Bool PeanoNat Lia.
From Verif Require Import Base BaseFacts Shamir Errors Io HeaderIoSpec StreamSpec Text Util CliErrors Getopts Crypto HeaderCrypto CredSpec FileCrypto KeyFiles Ui UiSpec Paths Cli CliProofs PathProofs Fs Commands FsSpec FsProofs ConvProofs FsProofs2 FsProofs3 FsProofs4 FsProofs6.
Import ListNotations.
Local Open Scope N_scope.

(** ** Options *)

Lemma find_short_some c o : find_short c = Some o -> short o = Some c.
Proof. unfold find_short. intros H. apply find_some in H as [_ H]. destruct (short o) as [d|]; [|discriminate H]. apply N.eqb_eq in H as ->. reflexivity. Qed.
Lemma find_long_some t o : find_long t = Some o -> long o = t.
Proof. unfold find_long. intros H. apply find_some in H as [_ H]. apply text_eqb_eq, H. Qed.
Lemma split_none t : forall n, split_equals t = (n, None) -> n = t.
Proof.
  induction t as [|c t IH]; intros n H; cbn [split_equals] in H; [congruence|]. destruct (c =? 61); [discriminate H|].
  destruct (split_equals t) as [n' v]. injection H as <- ->. f_equal. apply IH. reflexivity.
Qed.
Lemma cluster_letters pos cs : forall occs last, cluster pos cs = Ok (occs, last) -> forall x, In x occs -> exists c, short (o_opt x) = Some c /\ In c cs.
Proof.
  induction cs as [|c cs IH]; intros occs last H x Ix; cbn [cluster] in H; [injection H as <- _; destruct Ix|].
  destruct (find_short c) as [o|] eqn:Ef; [|discriminate H]. destruct (has_value o); [injection H as <- _; destruct Ix|].
  unfold bind in H. destruct (cluster pos cs) as [[occs' last']| |]; try discriminate H. injection H as <- <-.
  destruct Ix as [<-|Ix]; [exists c; split; [apply find_short_some, Ef|left; reflexivity]|]. destruct (IH _ _ eq_refl x Ix) as (c' & A & B). exists c'. split; [exact A|right; exact B].
Qed.
Lemma asked_cons a args o : asked args o -> asked (a :: args) o.
Proof. intros (b & I & H). exists b. split; [right; exact I|exact H]. Qed.
Lemma parse_asked args : forall pos m x, parse_args pos args = Ok m -> In x (m_occs m) -> has_value (o_opt x) = false -> asked args (o_opt x).
Proof.
  induction args as [args IH] using (well_founded_induction (Wf_nat.well_founded_ltof _ (@length text))). intros pos m x H Ix Hv.
  destruct args as [|cur args]; [injection H as <-; destruct Ix|].
  assert (K : forall n l occs (rest : outcome cerr opt_matches), (let* m := rest in Ok (mkMatches (occs ++ m_occs m) (m_free m))) = Ok m ->
    rest = parse_args n l -> (length l <= length args)%nat -> (forall a, In a l -> In a args) -> In x occs \/ asked (cur :: args) (o_opt x)).
  { intros n l occs rest E Er Ll Sub. unfold bind in E. destruct rest as [m0| |]; try discriminate E. injection E as <-. cbn [m_occs] in Ix.
    apply in_app_or in Ix as [Ix|Ix]; [auto|]. right. apply asked_cons. destruct (IH l) with (pos := n) (m := m0) (x := x) as (a & Ia & Ha); auto.
    - unfold Wf_nat.ltof. cbn [length]. lia.
    - exists a. auto. }
  assert (V : forall o v, In x [mkOcc pos o (Some v)] -> has_value o = true -> False) by (intros o v [<-|[]]; cbn in Hv; congruence).
  cbn [parse_args] in H.
  assert (Free : (let* m := parse_args (S pos) args in Ok (mkMatches (m_occs m) (cur :: m_free m))) = Ok m -> asked (cur :: args) (o_opt x)).
  { intros E. unfold bind in E. destruct (parse_args (S pos) args) as [m0| |] eqn:Ep; try discriminate E. injection E as <-. apply asked_cons. eapply IH; [|exact Ep|exact Ix|exact Hv]. unfold Wf_nat.ltof. cbn [length]. lia. }
  destruct cur as [|c1 cur]; [exact (Free H)|]. destruct (N.eq_dec c1 45) as [->|D1].
  2:{ apply Free. rewrite <- H. clear - D1. destruct c1 as [|p]; [reflexivity|]. do 6 (destruct p as [p|p|]; try reflexivity). contradiction D1. reflexivity. }
  destruct cur as [|c2 cur]; [exact (Free H)|]. destruct (N.eq_dec c2 45) as [->|D2].
  - destruct cur as [|c3 cur]; [injection H as <-; destruct Ix|]. set (tail := c3 :: cur) in *.
    destruct (split_equals tail) as [name value] eqn:Es. destruct (find_name name) as [o|] eqn:Ef; [|discriminate H].
    destruct (has_value o) eqn:Ho.
    + destruct value as [v|].
      * destruct (K (S pos) args _ _ H eq_refl (le_n _) (fun _ I => I)) as [I|I]; [destruct (V _ _ I Ho)|exact I].
      * destruct args as [|v args]; [discriminate H|]. destruct (K (S pos) args _ _ H eq_refl) as [I|I]; [cbn; lia|intros a I; right; exact I|destruct (V _ _ I Ho)|exact I].
    + destruct value as [v|]; [discriminate H|]. destruct (K (S pos) args _ _ H eq_refl (le_n _) (fun _ I => I)) as [[<-|[]]|I]; [|exact I].
      apply split_none in Es as ->. exists (45 :: 45 :: tail). split; [left; reflexivity|]. cbn [o_opt]. unfold find_name, tail in Ef. destruct cur as [|c4 cur].
      * right. exists c3. split; [apply find_short_some, Ef|left; reflexivity].
      * left. apply find_long_some in Ef as ->. reflexivity.
  - assert (H' : (let* (occs, last) := cluster pos (c2 :: cur) in
          match last with
          | None => let* m := parse_args (S pos) args in Ok (mkMatches (occs ++ m_occs m) (m_free m))
          | Some (o, []) =>
              match args with
              | v :: args => let* m := parse_args (S pos) args in Ok (mkMatches ((occs ++ [mkOcc pos o (Some v)]) ++ m_occs m) (m_free m))
              | [] => Err CArgumentMissing
              end
          | Some (o, v) => let* m := parse_args (S pos) args in Ok (mkMatches ((occs ++ [mkOcc pos o (Some v)]) ++ m_occs m) (m_free m))
          end) = Ok m).
    { rewrite <- H. clear - D2. destruct c2 as [|p]; [reflexivity|]. do 6 (destruct p as [p|p|]; try reflexivity). contradiction D2. reflexivity. }
    clear H. unfold bind at 1 in H'. destruct (cluster pos (c2 :: cur)) as [[occs last]| |] eqn:Ec; try discriminate H'.
    assert (O : In x occs -> asked ((45 :: c2 :: cur) :: args) (o_opt x)).
    { intros I. destruct (cluster_letters _ _ _ _ Ec x I) as (c & A & B). exists (45 :: c2 :: cur). split; [left; reflexivity|]. right. exists c. split; [exact A|]. right. exists c2, cur. auto. }
    assert (Hl : forall o v, last = Some (o, v) -> has_value o = true).
    { clear - Ec. revert occs last Ec. generalize (c2 :: cur). induction l as [|c l IH]; intros occs last Ec o v ->; cbn [cluster] in Ec; [discriminate Ec|].
      destruct (find_short c) as [o'|]; [|discriminate Ec]. destruct (has_value o') eqn:E; [injection Ec as _ <- _; exact E|]. unfold bind in Ec.
      destruct (cluster pos l) as [[occs' last']| |]; try discriminate Ec. injection Ec as _ ->. eapply IH; reflexivity. }
    destruct last as [[o v]|].
    + specialize (Hl _ _ eq_refl). destruct v as [|v1 v].
      * destruct args as [|a args]; [discriminate H'|]. destruct (K (S pos) args _ _ H' eq_refl) as [I|I]; [cbn; lia|intros b I; right; exact I| |exact I].
        apply in_app_or in I as [I|I]; [exact (O I)|destruct (V _ _ I Hl)].
      * destruct (K (S pos) args _ _ H' eq_refl (le_n _) (fun _ I => I)) as [I|I]; [|exact I]. apply in_app_or in I as [I|I]; [exact (O I)|destruct (V _ _ I Hl)].
    + destruct (K (S pos) args _ _ H' eq_refl (le_n _) (fun _ I => I)) as [I|I]; [exact (O I)|exact I].
Qed.
Lemma present_asked args m o : parse_options args = Ok m -> has_value o = false -> opt_present m o = true -> asked args o.
Proof.
  intros H Hv Hp. unfold parse_options, bind in H. destruct (parse_args 0 args) as [m0| |] eqn:Ep; try discriminate H.
  assert (m0 = m) as -> by (unfold ensure in H; destruct (forallb _ _); [congruence|discriminate H]).
  unfold opt_present in Hp. destruct (occs_of m o) as [|x l] eqn:Eo; [discriminate Hp|]. assert (I : In x (occs_of m o)) by (rewrite Eo; left; reflexivity).
  apply filter_In in I as [I E]. unfold opt_eqb in E. destruct (opt_eq_dec (o_opt x) o) as [<-|]; [|discriminate E]. eapply parse_asked; eassumption.
Qed.

Section Env.
Variable entry_of : names.
Variable lib : crypto_lib.

(** ** Streams without files *)

Lemma streams_no_files streams policy force d w r w' : crypt_streams entry_of lib streams policy force d w r w' ->
  (forall st, In st streams -> (forall p, s_input st <> IFile p) /\ (forall q, s_output st <> Ok (OFile q))) ->
  w_fs w' = w_fs w /\ forall g, In g (moments w') -> In g (moments w).
Proof.
  intros H Ns. assert (W : within (fun _ => False) (fun _ => False) w w').
  { eapply crypt_within; [exact H|]. split; [intros st q s I E; destruct (Ns st I) as [_ X]; destruct (X q E)|intros st p s I E; destruct (Ns st I) as [X _]; destruct (X p E)]. }
  destruct (W (fun g => g = w_fs w)) as [A B]; [intros f g T; destruct T; contradiction|reflexivity|]. split; [exact A|].
  intros g Ig. destruct (B g Ig) as [I| ->]; [exact I|left; reflexivity].
Qed.
Hypothesis Hlib : lib_ok lib.

Lemma remember_println {A} (m : act A) u : (forall u, u_input (snd (m u)) = u_input u) -> u_input (snd (ignore m u)) = u_input u.
Proof. intros M. unfold ignore. specialize (M u). destruct (m u) as [[| |] ?]; exact M. Qed.
Lemma println_input n t u : u_input (snd (ui_println n t u)) = u_input u.
Proof. unfold ui_println, emit. destruct (will_print u n); [|reflexivity]. destruct (u_room u) as [[]|]; reflexivity. Qed.

Lemma stream_output i policy force d w r w' : crypt_streams entry_of lib [mkStream i (Ok OStdout)] policy force d w r w' ->
  (forall p, i <> IFile p) ->
  r = Ok tt -> exists b c, is_conversion lib d b c /\ w_stdout w' = w_stdout w ++ c /\
    (i = IStdin -> exists s, u_input (w_ui w) = Some s /\ b = flat s) /\
    (forall p, i = IFileStream p -> exists s t, entry_of p = Some s /\ follow max_links (w_fs w) s = Some t /\
       forall j n, f_entries (w_fs w) t = Some (EFile j) -> f_nodes (w_fs w) j = Some n -> n_regular n = true -> b = n_content n).
Proof.
  intros H Nf ->. unfold crypt_streams in H. apply bind_ok_inv in H as ([cbs errs] & w1 & Hp & H). apply bind_ok_inv in H as (u & w2 & Hc & [E ->]).
  assert (errs = []) as -> by (destruct errs; [reflexivity|discriminate E]). clear E.
  cbn [process] in Hp. apply bind_ok_inv in Hp as ([c0 e0] & w3 & H1 & Hp). apply bind_ok_inv in Hp as (u1 & w4 & H2 & Hp). apply bind_ok_inv in Hp as ([c1 e1] & w5 & [E ->] & [E' ->]).
  injection E as -> ->. rewrite !app_nil_r in E'. injection E' as -> <-.
  unfold step in H1. apply bind_ok_inv in H1 as ([res cb] & w6 & H1 & H3).
  destruct res as [[]|e|].
  2:{ apply bind_ok_inv in H3 as (? & ? & _ & H3). apply bind_ok_inv in H3 as (? & ? & _ & [E _]). discriminate E. }
  2:{ destruct H3 as [E _]. discriminate E. }
  destruct H3 as [E ->]. cbn [s_input] in E. assert (c0 = []) as -> by (destruct i as [p| |]; [destruct (Nf p eq_refl)|injection E as ->; reflexivity..]). clear E.
  destruct Hc as [_ ->]. destruct H2 as [_ ->].
  unfold attempt in H1. apply bind_ok_inv in H1 as (op & w7 & H1 & H3). destruct H1 as [(x & Nx & H1 & E)|(_ & E)]; [|discriminate E]. injection E as ->.
  destruct x as [[[rd wr] cb']|e|]; [|destruct H3 as [E _]; discriminate E|contradiction Nx; reflexivity].
  apply bind_ok_inv in H3 as (res & w8 & H3 & [E ->]). injection E as <- ->. destruct H3 as [(x & _ & H3 & E)|(_ & E)]; [|discriminate E]. injection E as <-.
  apply bind_ok_inv in H1 as (u2 & w9 & [_ ->] & H1). cbn [s_input s_output] in *. apply bind_ok_inv in H1 as (o & w10 & [[= ->] ->] & H1).
  apply bind_ok_inv in H1 as (rd' & w11 & H1 & H4). apply bind_ok_inv in H4 as (wr' & w12 & [[= ->] ->] & [[= -> -> _] ->]).
  set (w0 := set_ui w _) in H1. pose proof (quiet_open_input _ _ _ _ _ _ H1) as (Qf & _ & _).
  assert (Qs : w_stdout w11 = w_stdout w).
  { clear - H1 Nf. destruct i as [p|p|]; [destruct (Nf p eq_refl)| |]; cbn [open_input] in H1.
    - apply bind_ok_inv in H1 as ([rd0 md] & w1 & H & [_ ->]). apply bind_ok_inv in H as (? & ? & [-> _] & H). apply bind_ok_inv in H as (? & ? & [-> _] & H).
      apply bind_ok_inv in H as (? & ? & [_ ->] & [_ ->]). reflexivity.
    - unfold open_stdin in H1. destruct (u_input (w_ui w0)); destruct H1 as [_ ->]; reflexivity. }
  destruct H3 as (er & src & room & fl & r0 & snk & k & Hr & Hk & Hpr & Hc & [(Er & ->)|(Er & _)]); [|discriminate Er].
  assert (r0 = Ok tt) as -> by (destruct r0 as [[]| |]; [reflexivity|discriminate Er..]).
  pose proof (conversion_reads_all lib Hlib _ _ _ _ _ Hr Hc) as Ee.
  exists (flat src), (w_out snk). split; [exists er, src, room, fl, snk; auto|]. split; [cbn; rewrite Qs; reflexivity|]. split.
  - intros ->. cbn [open_input] in H1. unfold open_stdin in H1. assert (u_input (w_ui w0) = u_input (w_ui w)) as Eu by (apply remember_println, println_input).
    rewrite Eu in H1. destruct (u_input (w_ui w)) as [s|]; [|destruct H1 as [E _]; discriminate E]. destruct H1 as [[= ->] _]. cbn in Hpr. subst src. eauto.
  - intros p ->. cbn [open_input] in H1. apply bind_ok_inv in H1 as ([rd0 md] & w1 & H & [[= ->] ->]).
    apply bind_ok_inv in H as (rd1 & wa & [-> Ho] & H). apply bind_ok_inv in H as (? & ? & [-> _] & H). apply bind_ok_inv in H as (? & ? & [_ ->] & [[= -> _] ->]).
    destruct Ho as [[E _]|(s & t & Es & F & Ho)]; [discriminate E|]. exists s, t. split; [exact Es|]. split; [exact F|]. intros j n Et En Rn. change (w_fs w0) with (w_fs w) in *.
    destruct Ho as [(j' & Et' & E)|(Et' & E)]; [|congruence]. assert (j' = j) by congruence. subst j'. injection E as ->.
    cbn [provides] in Hpr. cbn [set_ui w_fs] in *. rewrite En, Ee in Hpr. apply Hpr; [exact Rn|discriminate].
Qed.

(** ** Directories *)

Lemma directories streams policy force d w r w' st p s : crypt_streams entry_of lib streams policy force d w r w' ->
  In st streams -> s_input st = IFile p \/ s_input st = IFileStream p -> entry_of p = Some s -> f_entries (w_fs w) s = Some EDir ->
  r <> Ok tt /\ f_entries (w_fs w') s = Some EDir /\ forall g, In g (moments w') -> In g (moments w) \/ f_entries g s = Some EDir.
Proof.
  intros H I Ei Es Ed. split.
  - intros ->. destruct (crypt_inv _ _ _ _ _ _ _ _ _ H) as (rp & w1 & Hp & K). destruct K as [(e & _ & E & _)|[(_ & E & _)|(cbs & errs & -> & K)]]; [discriminate E..|].
    pose proof (process_dir _ _ force d st p s Ei Es _ _ _ _ _ Hp Ed I) as Ne.
    destruct K as [(_ & [K|(_ & e & _ & K)])|(w2 & _ & _ & _ & K)]; [destruct errs; [contradiction Ne; reflexivity|discriminate K]|discriminate K|destruct errs; [contradiction Ne; reflexivity|discriminate K]].
  - apply (crypt_within (fun _ => True) (fun _ => True) entry_of lib _ _ _ _ _ _ _ H (conj (fun _ _ _ _ _ _ => conj Logic.I Logic.I) (fun _ _ _ _ _ _ => Logic.I)) (fun g => f_entries g s = Some EDir));
      [intros f g T E; eapply touch_dir; eassumption|exact Ed].
Qed.

(** ** Command lines *)

Variable sha512 : bytes -> bytes.
Variable files : text -> option bytes.

Lemma main_inv args tin tout terr w status w' : main entry_of lib sha512 files args tin tout terr w status w' ->
  exists rc u1, parse_command_line sha512 files args tin tout terr (w_ui w) = (rc, u1) /\
  (((forall c, rc <> Ok c) /\ same_files w w' /\ status <> 0) \/
   exists c r w1, rc = Ok c /\ run_command entry_of lib sha512 c (set_ui w u1) r w1 /\ same_files w1 w' /\ w_stdout w' = w_stdout w1 /\ later (w_ui w1) (w_ui w') /\
     status = match r with Ok _ => 0 | Err _ => 1 | Panic => 101 end).
Proof.
  intros (r & w1 & H & K). destruct (parse_command_line sha512 files args tin tout terr (w_ui w)) as [rc u1] eqn:E. exists rc, u1. split; [reflexivity|].
  assert (Q : same_files w1 w' /\ w_stdout w' = w_stdout w1 /\ later (w_ui w1) (w_ui w') /\ status = match r with Ok _ => 0 | Err _ => 1 | Panic => 101 end).
  { assert (L : forall u, later u u) by (intros u; exists []; rewrite app_nil_r; reflexivity).
    destruct r as [[]|e|]; [destruct K as [-> ->]; repeat split; apply L| |destruct K as [-> ->]; repeat split; apply L].
    destruct e; destruct K as [-> ->]; repeat split; try apply L; apply speaks_print_error. }
  destruct H as [(c & w2 & [Ec ->] & H)|[(e & [Ec ->] & ->)|([Ec ->] & ->)]]; rewrite E in *; cbn [fst snd] in *; subst rc.
  - right. exists c, r, w1. tauto.
  - left. split; [discriminate|]. destruct Q as (Q & _ & _ & ->). split; [|discriminate]. destruct Q as (A & B & C). repeat split; assumption.
  - left. split; [discriminate|]. destruct Q as (Q & _ & _ & ->). split; [|discriminate]. destruct Q as (A & B & C). repeat split; assumption.
Qed.

Lemma streams_kind m d force streams : get_input_output_streams m d force = Ok streams ->
  (forall st, In st streams -> exists p, s_input st = IFile p) \/ exists i, streams = [mkStream i (Ok OStdout)] /\ forall p, i <> IFile p.
Proof.
  intros H. unfold get_input_output_streams in H. destruct (opt_present m OStream || _).
  - right. destruct (m_free m) as [|a [|b l]]; [| |discriminate H]; injection H as <-; eexists; (split; [reflexivity|]); [discriminate|]. destruct (text_eqb a dash); discriminate.
  - left. unfold bind at 1, ensure in H. destruct (negb _); [|discriminate H]. injection H as <-. intros st I. apply in_map_iff in I as (a & <- & _). eexists. reflexivity.
Qed.
Lemma crypt_options args tin tout terr u streams policy force d u1 :
  parse_command_line sha512 files args tin tout terr u = (Ok (CryptStreams streams policy force d), u1) ->
  file_to_file streams /\ (force = true -> asked args OForce) /\ (policy = DeleteFiles -> asked args ODiscardInputs) /\
  ((forall st, In st streams -> exists p, s_input st = IFile p) \/ exists i, streams = [mkStream i (Ok OStdout)] /\ forall p, i <> IFile p).
Proof.
  intros H. apply command_line_inv in H as (m & Hm & _ & H). destruct (H _ _ _ _ eq_refl) as (dir & u0 & u2 & _ & Ef & Hs & _ & _ & _ & Ep). split; [|split; [|split]].
  - intros st p I Ei Eo. destruct (streams_inv _ _ _ _ _ Hs I) as [(p' & _ & _ & E)|(_ & _ & [E|(p' & E)])]; [|congruence..].
    rewrite Eo in E. unfold bind in E. destruct (match dir with Encrypt => _ | Decrypt => _ end); discriminate E.
  - intros ->. eapply present_asked; [exact Hm|reflexivity|auto].
  - intros ->. eapply present_asked; [exact Hm|reflexivity|]. destruct (opt_present m OKeepInputs), (opt_present m ODiscardInputs); congruence.
  - exact (streams_kind _ _ _ _ Hs).
Qed.
Lemma keypair_force args tin tout terr u streams u1 :
  parse_command_line sha512 files args tin tout terr u = (Ok (GenerateKeyPair streams true), u1) -> asked args OForce.
Proof.
  intros H. unfold parse_command_line in H. apply CliProofs.bind_ok in H as (m & u0 & H0 & H). apply CliProofs.lift_ok in H0 as [H0 ->].
  apply CliProofs.bind_ok in H as (x & u2 & _ & H). apply CliProofs.bind_ok in H as (x' & u3 & _ & H).
  assert (E : opt_present m OForce = true).
  { destruct (if match args with [] => true | _ => false end && tout then MHelp else get_mode m) as [d| | |].
    - apply CliProofs.bind_ok in H as (? & ? & _ & H). apply CliProofs.bind_ok in H as (? & ? & _ & H). apply CliProofs.bind_ok in H as (? & ? & _ & H). apply CliProofs.bind_ok in H as (? & ? & _ & H). discriminate H.
    - apply CliProofs.bind_ok in H as (? & ? & _ & H). injection H as _ E. exact E.
    - discriminate H.
    - discriminate H. }
  eapply present_asked; [exact H0|reflexivity|exact E].
Qed.
End Env.

(** Proofs about the reasons for which the program crashes. *)
From Coq.Strings Require Import Byte String.
From Coq Require Import List NArith ZArith Bool PeanoNat Lia.
From Verif Require Import Base BaseFacts Shamir Errors Io HeaderIo HeaderIoSpec HeaderIoProofs StreamSpec Text Util CliErrors Crypto HeaderCrypto CredSpec StreamCrypto Pipeline PipelineSpec FileCrypto StreamProofs StreamProofs3 FileProofs
  KeyFiles Ui UiSpec UiProofs UiProofs2 SettingsProofs Paths PathProofs Getopts CliCreds CliProofs CliProofs2 CliProofs4 Cli Fs Commands FsSpec FsProofs ConvProofs FsProofs2 FsProofs3 FsProofs4 FsProofs10 FsProofs11.
Import ListNotations.
Local Open Scope N_scope.

(** ** Computations that do not crash *)

Definition calm {A} (m : io A) : Prop := forall w w', ~ m w Panic w'.
Lemma calm_ret {A} (a : A) : calm (io_ret a).
Proof. intros w w' [E _]. discriminate E. Qed.
Lemma calm_lift {A} (x : outcome cerr A) : x <> Panic -> calm (io_lift x).
Proof. intros N w w' [E _]. congruence. Qed.
Lemma calm_ui {A} (m : act A) : (forall u, fst (m u) <> Panic) -> calm (io_ui m).
Proof. intros N w w' [E _]. exact (N _ (eq_sym E)). Qed.
Lemma calm_bind {A B} (m : io A) (f : A -> io B) : calm m -> (forall a, calm (f a)) -> calm (io_bind m f).
Proof. intros M F w w' [(a & w1 & _ & H)|[(e & _ & E)|(H & _)]]; [exact (F _ _ _ H)|discriminate E|exact (M _ _ H)]. Qed.
Lemma calm_try {A} (m : io A) : calm m -> calm (io_try m).
Proof. intros M w w' [(x & _ & _ & E)|(H & _)]; [discriminate E|exact (M _ _ H)]. Qed.
Lemma ensure_calm b e : @ensure cerr b e <> Panic.
Proof. destruct b; discriminate. Qed.
Lemma ignore_calm {A} (m : act A) u : fst (m u) <> Panic -> fst (ignore m u) <> Panic.
Proof. unfold ignore. destruct (m u) as [[| |] ?]; cbn; congruence. Qed.
Lemma print_error_calm e u : fst (print_error e u) <> Panic.
Proof. unfold print_error, emit. destruct (will_print _ _); [destruct (u_room u) as [[|]|]|]; discriminate. Qed.

Lemma bind_act_panic {A B} (m : act A) (f : A -> act B) u : fst (bind_act m f u) = Panic ->
  fst (m u) = Panic \/ exists a u1, m u = (Ok a, u1) /\ fst (f a u1) = Panic.
Proof. unfold bind_act. destruct (m u) as [[a|e|] u1]; cbn [fst]; [eauto|discriminate|auto]. Qed.

Section Env.
Variable entry_of : names.
Variable lib : crypto_lib.
Hypothesis Hlib : lib_ok lib.

Lemma calm_open_file p : calm (open_file entry_of p).
Proof.
  apply calm_bind; [intros w w' (_ & [[E _]|(s & t & _ & _ & [(i & _ & E)|(_ & E)])]); discriminate E|]. intros rd.
  apply calm_bind; [intros w w' (_ & [[E _]|(s & md & _ & _ & E)]); discriminate E|]. intros md. apply calm_bind; [apply calm_lift, ensure_calm|]. intros _. apply calm_ret.
Qed.
Lemma calm_open_input i force : i <> IStdin -> calm (open_input entry_of i force).
Proof.
  intros Ni. destruct i as [p|p|]; [| |contradiction Ni; reflexivity]; cbn [open_input].
  - apply calm_bind; [apply calm_open_file|]. intros [rd md]. do 3 (apply calm_bind; [apply calm_lift, ensure_calm|]; intros _). apply calm_ret.
  - apply calm_bind; [apply calm_open_file|]. intros [rd md]. apply calm_ret.
Qed.
Lemma calm_open_output o force : calm (open_output entry_of o force).
Proof.
  destruct o as [q|]; cbn [open_output]; [|apply calm_ret]. destruct force; intros w w'.
  - intros [(E & _)|(s & t & i & _ & _ & E & _)]; discriminate E.
  - intros [(E & _)|(s & i & _ & _ & _ & E & _)]; discriminate E.
Qed.
Lemma calm_remove_cb p force : calm (remove_cb entry_of p force).
Proof.
  apply calm_bind; [apply calm_try|].
  - intros w w' H. unfold remove_file in H. destruct (entry_of p) as [s|]; [|destruct H; discriminate].
    destruct (f_entries (w_fs w) s) as [[]|]; [destruct H as [(_ & E & _)|[E _]]; discriminate E..|destruct H; discriminate|destruct H; discriminate].
  - intros [[]|e|]; [apply calm_ret| |apply calm_ret]. destruct force; [apply calm_ret|]. apply calm_ui. intros u. apply ignore_calm, print_error_calm.
Qed.
Lemma calm_text wr t : calm (write_text entry_of wr t).
Proof. intros w w' [(E & _)|(_ & E & _)]; discriminate E. Qed.

(** ** Conversions *)

(** A conversion crashes because of its header. *)
Lemma conversion_panic d er src w w' : random_ok er -> conversion lib d er src w Panic w' ->
  match d with
  | DoEncrypt (Complex subs n t) fast => encrypt_header lib (mkEncryptOptions subs n t fast) er = Panic
  | DoEncrypt _ _ => True
  | DoDecrypt D => exists ser k rest, read_header src = Ok (ser, k, rest) /\ decrypt_header lib ser D = Panic
  end.
Proof.
  intros Hr H. destruct d as [[| | | |subs n t] fast|D]; try exact Logic.I; cbn [conversion] in H.
  - unfold encrypt_stream in H. destruct (encrypt_header lib _ er) as [[[ser cod] chunk]| |] eqn:He; [|destruct H; discriminate|reflexivity]. exfalso.
    destruct (write_header w ser) as [[[]| |] w1] eqn:Ew; [|destruct H; discriminate|].
    + pose proof (c_pos _ _ _ _ _ _ Hr He) as P. pose proof (c_64 _ _ _ _ _ _ Hr He) as Q. destruct (cod_parts _ _ _ _ _ _ Hlib He) as (Hok & Hen & _).
      destruct (encrypt_result cod Hok Hen _ P Q _ _ _ _ H) as (_ & _ & N). apply N. reflexivity.
    + destruct (N.le_gt_cases (lenN ser) MAX_HEADER_LEN) as [L|L].
      * destruct (write_header_spec w ser L) as (r1 & w2 & E & [(-> & _)|(-> & _)]); rewrite Ew in E; discriminate E.
      * rewrite write_header_too_large in Ew by assumption. discriminate Ew.
  - unfold decrypt_stream in H. destruct (read_header src) as [[[ser k] rest]| |] eqn:Er; [|destruct H; discriminate|].
    + destruct (decrypt_header lib ser D) as [[cod chunk]| |] eqn:Ed; [|destruct H; discriminate|eauto]. exfalso.
      destruct (convert_stream_spec _ (dec_codec_ok lib Hlib _ _ _ _ Ed) _ _ _ _ H) as (_ & _ & N & _). apply N. reflexivity.
    + exfalso. exact (read_header_no_panic _ Er).
Qed.

(** ** Streams *)

(** Why a stream crashes. *)
Definition crash_reason (st : io_stream) (force : bool) (d : direction_opts) (w w' : world) : Prop :=
  stalls entry_of = true \/ (s_input st = IStdin /\ u_input (w_ui w) = None) \/ s_output st = Panic \/
  exists er src snk snk', random_ok er /\ conversion lib d er src snk Panic snk' /\
    (force = false -> exists f, In f (moments w') /\ can_deliver entry_of f (w_ui w) (s_input st) src).

Lemma open_file_follow p w rd md w' : open_file entry_of p w (Ok (rd, md)) w' ->
  exists s t, entry_of p = Some s /\ follow max_links (w_fs w) s = Some t /\ (forall i, f_entries (w_fs w) t = Some (EFile i) -> rd = ReadNode i).
Proof.
  intros H. apply bind_ok_inv in H as (rd' & w1 & [-> H1] & H). apply bind_ok_inv in H as (md' & w2 & [-> H2] & H).
  apply bind_ok_inv in H as (x & w3 & [H3 ->] & H). destruct H as [E _]. injection E as <- <-.
  destruct H1 as [[E _]|(s & t & Es & Et & K)]; [discriminate E|]. exists s, t. split; [exact Es|]. split; [exact Et|]. intros i Ei.
  destruct K as [(j & Ej & E)|[Ej _]]; congruence.
Qed.
Lemma open_input_follow i force w rd w' : open_input entry_of i force w (Ok rd) w' ->
  match i with
  | IStdin => exists s, u_input (w_ui w) = Some s /\ rd = ReadStdin s
  | IFile p | IFileStream p => exists s t, entry_of p = Some s /\ follow max_links (w_fs w) s = Some t /\ (forall j, f_entries (w_fs w) t = Some (EFile j) -> rd = ReadNode j)
  end.
Proof.
  destruct i as [p|p|]; cbn [open_input]; intros H.
  - apply bind_ok_inv in H as ([rd' md] & w1 & H1 & H). apply bind_ok_inv in H as (x & w2 & [H2 _] & H). apply bind_ok_inv in H as (x' & w3 & [H3 _] & H). apply bind_ok_inv in H as (x'' & w4 & [H4 _] & H).
    destruct H as [E _]. injection E as <-. eapply open_file_follow, H1.
  - apply bind_ok_inv in H as ([rd' md] & w1 & H1 & H). destruct H as [E _]. injection E as <-. eapply open_file_follow, H1.
  - unfold open_stdin in H. destruct (u_input (w_ui w)) as [s|]; [|destruct H; discriminate]. destruct H as [E _]. injection E as ->. eauto.
Qed.

Lemma convert_moments d rd wr w r w' : convert entry_of lib d rd wr w r w' -> forall g, In g (moments w) -> In g (moments w').
Proof.
  assert (W : forall out g, In g (moments w) -> In g (moments (write_out wr out w))).
  { intros out g Ig. destruct wr as [i|]; cbn [write_out]; [|exact Ig]. destruct (f_nodes (w_fs w) i) as [n|]; [|exact Ig]. destruct (n_regular n); [|exact Ig].
    generalize (seq 1 (length out)). intros l. generalize dependent w. induction l as [|k l IH]; intros w Ig; cbn [fold_left]; [exact Ig|]. apply IH. right. exact Ig. }
  intros (er & src & room & fl & r0 & snk & lines & _ & _ & _ & _ & [[_ ->]|(_ & _ & out & _ & ->)]) g Ig; exact (W _ _ Ig).
Qed.

Lemma attempt_panic {k n} st force d w w' : attempt entry_of lib k n st force d w Panic w' -> crash_reason st force d w w'.
Proof.
  intros H. unfold attempt in H.
  match type of H with io_bind (io_try ?m) _ _ _ _ => set (opening := m) in H end.
  assert (Hp : forall u, u_input (snd (ignore (ui_println 0 (file_header k n st)) u)) = u_input u).
  { intros u. unfold ignore, ui_println, emit. destruct (will_print _ _); [destruct (u_room u) as [[|]|]|]; reflexivity. }
  assert (O : forall w1 r, opening w r w1 ->
    match r with
    | Panic => crash_reason st force d w w1
    | Err _ => True
    | Ok (rd, wr, _) => (forall g, In g (moments w) -> In g (moments w1)) /\
        (forall src, provides entry_of (w_fs w1) rd wr src -> force = false -> can_deliver entry_of (w_fs w) (w_ui w) (s_input st) src)
    end).
  { intros w1 r K. unfold opening in K. clear H. destruct K as [(x & wa & K1 & K)|[(e & K1 & ->)|(K1 & ->)]]; [|exact Logic.I|].
    2:{ exfalso. destruct K1 as [E _]. revert E. unfold ignore, ui_println, emit. destruct (will_print _ _); [destruct (u_room _) as [[|]|]|]; discriminate. }
    destruct K1 as [_ ->].
    destruct K as [(o & wb & [Eo ->] & K)|[(e & _ & ->)|([Eo _] & ->)]]; [|exact Logic.I|right; right; left; symmetry; exact Eo].
    destruct K as [(rd & wc & K3 & K)|[(e & _ & ->)|(K3 & ->)]]; [|exact Logic.I|].
    2:{ destruct (s_input st) as [p|p|] eqn:Ei; [exfalso; revert K3; apply calm_open_input; discriminate..|]. right. left. split; [exact Ei|].
        cbn [open_input] in K3. unfold open_stdin in K3. cbn [set_ui w_ui] in K3. rewrite Hp in K3. destruct (u_input (w_ui w)); [destruct K3; discriminate|reflexivity]. }
    pose proof (quiet_open_input _ _ _ _ _ _ K3) as Q. apply open_input_follow in K3.
    destruct K as [(wr & wd & K4 & K)|[(e & _ & ->)|(K4 & ->)]]; [|exact Logic.I|exfalso; revert K4; apply calm_open_output].
    destruct K as [-> ->]. cbn [set_ui w_ui w_fs w_past] in *. destruct Q as (Qf & Qp & _).
    assert (M : (forall g, In g (moments w) -> In g (moments wd)) /\
                (forall j, force = false -> f_nodes (w_fs w) j <> None -> wr <> WriteNode j /\ f_nodes (w_fs wd) j = f_nodes (w_fs w) j)).
    { assert (Mc : moments wc = moments w) by (unfold moments; rewrite Qf, Qp; reflexivity). cbn [set_ui w_fs] in Qf.
      destruct o as [q|]; cbn [open_output] in K4; [|destruct K4 as [[= ->] ->]; rewrite Mc, Qf; split; [auto|split; [discriminate|reflexivity]]].
      destruct force.
      - split; [|discriminate]. destruct K4 as [(E & _)|(s & t & i & _ & _ & _ & [(_ & _ & ->)|(nd & _ & _ & ->)])]; [discriminate E| |].
        + intros g Ig. right. rewrite <- Mc in Ig. exact Ig.
        + destruct (n_regular nd); intros g Ig; rewrite <- Mc in Ig; [right|]; exact Ig.
      - destruct K4 as [(E & _)|(s & i & _ & Ee & [Eu _] & [= ->] & ->)]; [discriminate E|]. split.
        + intros g Ig. right. rewrite <- Mc in Ig. exact Ig.
        + intros j _ Nj. rewrite Qf in Eu. cbn [set_fs w_fs add_file f_nodes]. unfold update. rewrite Qf. destruct (N.eqb_spec j i) as [->|Ne]; [contradiction|].
          split; [congruence|reflexivity]. }
    destruct M as [M1 M2]. split; [exact M1|]. intros src Hs Hf. specialize (fun j => M2 j Hf).
    assert (G : forall p, (exists s t, entry_of p = Some s /\ follow max_links (w_fs w) s = Some t /\ (forall j, f_entries (w_fs w) t = Some (EFile j) -> rd = ReadNode j)) ->
      exists s t, entry_of p = Some s /\ follow max_links (w_fs w) s = Some t /\
        forall j n, f_entries (w_fs w) t = Some (EFile j) -> f_nodes (w_fs w) j = Some n -> n_regular n = true -> exists rest, n_content n = flat src ++ rest).
    { intros p (s & t & Es & Et & Er). exists s, t. split; [exact Es|]. split; [exact Et|]. intros j nd Ej En Rn. specialize (Er _ Ej). subst rd.
      destruct (M2 j) as [Nw Ew]; [congruence|]. unfold provides in Hs. rewrite Ew, En in Hs. specialize (Hs Rn Nw).
      destruct (ends_in_error src); [exact (proj2 Hs)|]. exists []. rewrite app_nil_r. symmetry. exact Hs. }
    destruct (s_input st) as [p|p|]; cbn [can_deliver]; [exact (G p K3)..|].
    rewrite Hp in K3. destruct K3 as (s & E & ->). cbn [provides] in Hs. congruence. }
  clearbody opening. destruct H as [(op & w1 & H1 & H)|[(e & H1 & E)|(H1 & _)]]; [|discriminate E|].
  2:{ destruct H1 as [(x & _ & _ & E)|(H1 & _)]; [discriminate E|]. exact (O _ _ H1). }
  destruct H1 as [(x & Nx & H1 & E)|(_ & E)]; [|discriminate E]. injection E as ->. specialize (O _ _ H1).
  destruct x as [[[rd wr] cb]|e|]; [|destruct H; discriminate|contradiction Nx; reflexivity]. destruct O as [O1 O2].
  destruct H as [(rr & w2 & H2 & [E _])|[(e & H2 & E)|(H2 & _)]]; [discriminate E|discriminate E|].
  destruct H2 as [(y & _ & _ & E)|(H2 & _)]; [discriminate E|]. pose proof (convert_moments _ _ _ _ _ _ H2) as Mv.
  destruct H2 as (er & src & room & fl & r0 & snk & lines & Hr & _ & Hs & Hc & [[E _]|(_ & P & _)]).
  - right. right. right. exists er, src, (mkSink [] room fl false), snk. split; [exact Hr|]. split; [destruct r0 as [[]|e|]; [discriminate E..|exact Hc]|].
    intros Hf. exists (w_fs w). split; [apply Mv, O1; left; reflexivity|]. exact (O2 _ Hs Hf).
  - left. eapply panics_stalls, P.
Qed.

Lemma step_panic {k n} st force d w w' : step entry_of lib k n st force d w Panic w' -> crash_reason st force d w w'.
Proof.
  intros [([res cb] & w1 & H1 & H)|[(e & _ & E)|(H & _)]]; [|discriminate E|eapply attempt_panic, H]. exfalso. destruct res as [[]|e|].
  - destruct H; discriminate.
  - revert H. apply calm_bind; [apply calm_ui; intros u; apply ignore_calm, print_error_calm|]. intros _.
    apply calm_bind; [destruct cb; [apply calm_remove_cb|apply calm_ret]|]. intros _. apply calm_ret.
  - unfold attempt in H1. apply bind_ok_inv in H1 as (op & w2 & _ & H1). destruct op as [[[rd wr] c]|e|]; [|destruct H1; discriminate|destruct H1; discriminate].
    apply bind_ok_inv in H1 as (r & w3 & H3 & H1). destruct H1 as [E _]. injection E as <- <-. destruct H3 as [(x & Nx & _ & E)|(_ & E)]; [|discriminate E]. congruence.
Qed.

Lemma step_moments {k n} st d w r w' : step entry_of lib k n st false d w r w' -> forall g, In g (moments w) -> In g (moments w').
Proof. intros H. destruct (step_spec entry_of lib Hlib _ _ _ _ _ H) as (G & _). exact (g_past _ _ G). Qed.

Lemma crash_moments st force d w w1 w2 : crash_reason st force d w w1 -> (force = false -> forall g, In g (moments w1) -> In g (moments w2)) -> crash_reason st force d w w2.
Proof.
  intros [K|[K|[K|(er & src & snk & snk' & A & B & C)]]] M; [left; exact K|right; left; exact K|right; right; left; exact K|].
  right. right. right. exists er, src, snk, snk'. split; [exact A|]. split; [exact B|]. intros Hf. destruct (C Hf) as (f & I & D). exists f. split; [apply M; assumption|exact D].
Qed.

Lemma process_panic {k n} force d l : (forall st, In st l -> s_input st <> IStdin) \/ (exists st, l = [st]) ->
  forall w w', process entry_of lib k n l force d w Panic w' -> exists st, In st l /\ crash_reason st force d w w'.
Proof.
  intros Hl. revert k. induction l as [|st l IH]; intros k w w' H; [destruct H; discriminate|]. cbn [process] in H.
  destruct H as [([c0 e0] & w1 & H1 & H)|[(e & _ & E)|(H1 & _)]]; [|discriminate E|exists st; split; [left; reflexivity|eapply step_panic, H1]].
  destruct H as [(x & w2 & H2 & H)|[(e & _ & E)|(H2 & _)]]; [|discriminate E|].
  2:{ exfalso. destruct H2 as [E _]. pose proof (println_result [] (w_ui w1)) as P. rewrite <- E in P. exact P. }
  destruct H as [([c1 e1] & w3 & H3 & [E _])|[(e & _ & E)|(H3 & _)]]; [discriminate E|discriminate E|].
  destruct Hl as [Hl|(st' & [= -> ->])]; [|destruct H3; discriminate].
  destruct (IH (or_introl (fun st I => Hl st (or_intror I))) _ _ _ H3) as (st' & I & R). exists st'. split; [right; exact I|].
  destruct R as [K|[[K1 K2]|[K|(er & src & snk & snk' & A & B & C)]]]; [left; exact K|exfalso; apply (Hl st' (or_intror I) K1)|right; right; left; exact K|].
  right. right. right. exists er, src, snk, snk'. split; [exact A|]. split; [exact B|]. intros Hf. destruct (C Hf) as (f & If & D). exists f. split; [exact If|].
  specialize (Hl st' (or_intror I)). destruct (s_input st'); [exact D|exact D|contradiction Hl; reflexivity].
Qed.

Lemma remove_all_calm l force : calm (remove_all entry_of l force).
Proof. induction l as [|p l IH]; cbn [remove_all]; [apply calm_ret|]. apply calm_bind; [apply calm_remove_cb|]. intros _. exact IH. Qed.

Lemma crypt_panic streams policy force d w w' : (forall st, In st streams -> s_input st <> IStdin) \/ (exists st, streams = [st]) ->
  crypt_streams entry_of lib streams policy force d w Panic w' -> exists st, In st streams /\ crash_reason st force d w w'.
Proof.
  intros Hl [([cbs errs] & w1 & H1 & H)|[(e & _ & E)|(H1 & _)]]; [|discriminate E|eapply process_panic; eassumption]. exfalso. revert H. apply calm_bind.
  - destruct cbs as [|p cbs]; [apply calm_ret|]. apply calm_bind.
    + destruct policy; [apply calm_ret..|]. apply calm_bind; [|intros a; apply calm_ret]. apply calm_ui. intros u E. pose proof (question_err u) as Q. rewrite E in Q. exact Q.
    + intros [|]; [apply remove_all_calm|apply calm_ret].
  - intros _. apply calm_lift. destruct errs; discriminate.
Qed.

Variable sha512 : bytes -> bytes.
Lemma generate_calm streams force : calm (generate_key_pair_files entry_of lib sha512 streams force).
Proof.
  intros w w' [(cs & w1 & [E _] & H)|[(e & _ & E)|([E _] & _)]]; [|discriminate E|destruct (lib ChaCha20Poly1305Ietf); discriminate E].
  destruct (lib ChaCha20Poly1305Ietf) as [cs'|] eqn:El; [|discriminate E]. injection E as ->. pose proof (Hlib _ _ El) as Hc. revert H.
  assert (P : forall t u, fst (ui_println 0 t u) <> Panic).
  { intros t u E. pose proof (println_result t u) as Q. rewrite E in Q. exact Q. }
  apply calm_bind; [|intros errs; apply calm_lift; destruct errs; discriminate]. generalize 0%nat (length streams). intros k n. revert k. induction streams as [|ks l IH]; intros k; cbn [generate_all]; [apply calm_ret|].
  intros v v' [([pk sk] & v1 & [_ (seed & Ek)] & H)|[(e & _ & E)|([_ (seed & E)] & _)]]; [|discriminate E|discriminate E]. injection Ek as Ek.
  revert H. apply calm_bind.
  - apply calm_lift. unfold key_pair_texts, assert, bind. pose proof (keypair_layout _ Hc seed) as L. rewrite <- Ek in L. cbn [fst snd] in L. rewrite L.
    destruct (bytes_eqb pk pk) eqn:Eb; [discriminate|]. exfalso. assert (bytes_eqb pk pk = true) by (apply bytes_eqb_eq; reflexivity). congruence.
  - intros [pt st]. do 2 (apply calm_bind; [apply calm_ui, P|]; intros _). intros x x' [(res & x1 & H1 & H)|[(e & _ & E)|(H1 & _)]]; [|discriminate E|].
    + revert H. apply calm_bind; [|intros errs; apply calm_bind; [apply calm_ui, P|]; intros _; apply calm_bind; [apply IH|]; intros e; apply calm_ret].
      destruct res as [[]|e|]; [apply calm_ret|apply calm_bind; [apply calm_ui; apply print_error_calm|]; intros _; apply calm_ret|].
      destruct H1 as [(y & Ny & _ & E)|(_ & E)]; [|discriminate E]. congruence.
    + revert H1. apply calm_try. unfold write_pair. apply calm_bind.
      * destruct (k_public ks) as [p|]; [|apply calm_ret]. apply calm_bind; [apply calm_ui, P|]. intros _. apply calm_bind; [apply (calm_open_output (OFile p))|]. intros wr. apply calm_text.
      * intros _. apply calm_bind; [apply calm_ui, P|]. intros _. apply calm_bind; [apply calm_open_output|]. intros wr. apply calm_text.
Qed.
End Env.

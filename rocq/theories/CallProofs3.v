(** Conversions in a shared file system whose other users leave the files of the command alone (C67). *)
From Coq.Strings Require Import Byte String.
From Coq Require Import List NArith ZArith Bool PeanoNat Lia.
From Verif Require Import Base BaseFacts Shamir Errors Io HeaderIoSpec StreamSpec Text Util CliErrors Crypto HeaderCrypto FileCrypto CredSpec KeyFiles Ui UiSpec Paths Getopts CliCreds Cli Fs Commands FsSpec ConvProofs FsProofs FsProofs3 FsProofs4 Program Calls CallSpec CallProofs CallProofs2.
Import ListNotations.
Local Open Scope N_scope.

Definition file_at (f : fs) (s i : N) (b : bytes) : Prop := f_entries f s = Some (EFile i) /\ f_nodes f i = Some (mkNode true b 1).
Lemma file_at_plain f s i b : file_at f s i b -> plain_file f s b.
Proof. intros K. exists i. exact K. Qed.
Lemma intact_file f g s i b : intact f g s -> file_at f s i b -> file_at g s i b.
Proof. intros [A B] [C D]. split; [congruence|]. rewrite (B i C). exact D. Qed.
Lemma intact_refl f s : intact f f s.
Proof. split; auto. Qed.
(** Only one entry refers to a file with one link. *)
Lemma sole f s s' i b : wf_fs f -> file_at f s i b -> f_entries f s' = Some (EFile i) -> s' = s.
Proof.
  intros [_ W2] [A B] E. destruct (N.eq_dec s' s) as [|D]; [assumption|]. pose proof (W2 s' s i _ E A D B) as L. cbn in L. lia.
Qed.

Section Shared.
Variable entry_of : names.
Variable lib : crypto_lib.
Hypothesis Hlib : lib_ok lib.
Variables (all : list io_stream) (d : direction_opts) (f0 : fs).
Local Notation others := (leave_alone entry_of all).
Local Notation G := (allowed_step entry_of lib all d f0).
Local Notation wt := (wh entry_of others G).
Local Notation st_ := (stable others).

Lemma G_refl f : G f f.
Proof. intros s. left. apply intact_refl. Qed.

Definition base (f : fs) : Prop := wf_fs f /\ forall s, concerns entry_of all s -> f_entries f0 s <> None -> f_entries f s <> None.
(** The stream is converted, with all its files different from [av]. *)
Definition finished (av : option N) (f : fs) (st : io_stream) : Prop :=
  s_output st = Ok OStdout \/
  exists q t j c b, s_output st = Ok (OFile q) /\ entry_of q = Some t /\ file_at f t j c /\ is_conversion lib d b c /\ Some t <> av /\
    forall p, s_input st = IFile p -> exists s i, entry_of p = Some s /\ file_at f s i b /\ Some s <> av.
Definition kept (av : option N) (D : list io_stream) (f : fs) : Prop := base f /\ forall st, In st D -> In st all /\ finished av f st.

Lemma concerns_output st q t : In st all -> s_output st = Ok (OFile q) -> entry_of q = Some t -> concerns entry_of all t.
Proof. intros A B C. exists st, q. auto. Qed.
Lemma concerns_input st p s : In st all -> s_input st = IFile p -> entry_of p = Some s -> concerns entry_of all s.
Proof. intros A B C. exists st, p. auto. Qed.

Lemma finished_change av f g st : In st all -> (forall s i b, concerns entry_of all s -> Some s <> av -> file_at f s i b -> file_at g s i b) -> finished av f st -> finished av g st.
Proof.
  intros I H [E|(q & t & j & c & b & A & B & C & D & Na & F)]; [left; exact E|]. right. exists q, t, j, c, b. split; [exact A|]. split; [exact B|].
  split; [apply H; [eapply concerns_output; eassumption|exact Na|exact C]|]. split; [exact D|]. split; [exact Na|]. intros p Ep. destruct (F p Ep) as (s & i & K & L & M).
  exists s, i. split; [exact K|]. split; [apply H; [eapply concerns_input; eassumption|exact M|exact L]|exact M].
Qed.
Lemma finished_forget av f st : finished av f st -> finished None f st.
Proof.
  intros [E|(q & t & j & c & b & A & B & C & D & Na & F)]; [left; exact E|]. right. exists q, t, j, c, b. do 4 (split; [assumption|]). split; [discriminate|].
  intros p Ep. destruct (F p Ep) as (s & i & K & L & M). exists s, i. split; [exact K|]. split; [exact L|discriminate].
Qed.
Lemma finished_avoid av t' f st : finished None f st -> av = Some t' -> f_entries f t' = None -> finished av f st.
Proof.
  intros [E|(q & t & j & c & b & A & B & C & D & Na & F)] -> N; [left; exact E|]. right. exists q, t, j, c, b. do 4 (split; [assumption|]).
  split; [intros [= ->]; destruct C; congruence|]. intros p Ep. destruct (F p Ep) as (s & i & K & L & M). exists s, i. split; [exact K|]. split; [exact L|]. intros [= ->]. destruct L; congruence.
Qed.
Lemma kept_forget av D f : kept av D f -> kept None D f.
Proof. intros [B K]. split; [exact B|]. intros st I. destruct (K st I). split; [assumption|]. eapply finished_forget; eassumption. Qed.

Lemma stable_base : st_ base.
Proof.
  intros f g [W O] [_ B]. split; [exact W|]. intros s C N. destruct (O s C) as [E _]. rewrite E. auto.
Qed.
Lemma stable_kept av D : st_ (kept av D).
Proof.
  intros f g O [B K]. split; [eapply stable_base; eassumption|]. intros st I. destruct (K st I) as [A F]. split; [exact A|].
  eapply finished_change; [exact A| |exact F]. intros s i b C _. apply intact_file. apply (proj2 O), C.
Qed.
Lemma stable_file s i b : concerns entry_of all s -> st_ (fun f => file_at f s i b).
Proof. intros C f g O. apply intact_file, (proj2 O), C. Qed.
Lemma stable_true : st_ (fun _ => True).
Proof. intros f g _ _. exact I. Qed.
Lemma stable_and P Q : st_ P -> st_ Q -> st_ (fun f => P f /\ Q f).
Proof. intros A B f g O [C D]. split; [eapply A|eapply B]; eassumption. Qed.
Lemma stable_ex {X} (P : X -> fs -> Prop) : (forall x, st_ (P x)) -> st_ (fun f => exists x, P x f).
Proof. intros A f g O [x C]. exists x. eapply A; eassumption. Qed.
Lemma stable_const (C : Prop) : st_ (fun _ => C).
Proof. intros f g _ K. exact K. Qed.

(** What is known about an opened input: nothing, unless it is a file. *)
Definition input_known (st : io_stream) (rd : reader) (f : fs) : Prop :=
  forall p, s_input st = IFile p -> exists s i b, concerns entry_of all s /\ entry_of p = Some s /\ file_at f s i b /\ rd = ReadNode i.
Lemma stable_input_known st rd : st_ (input_known st rd).
Proof.
  intros f g O K p Ep. destruct (K p Ep) as (s & i & b & A & B & C & D). exists s, i, b. split; [exact A|]. split; [exact B|]. split; [|exact D]. eapply intact_file; [apply (proj2 O), A|exact C].
Qed.

Lemma wt_quiet {A} P (c : outcome cerr A -> syscall) : st_ P -> (forall x w w', takes entry_of (c x) w w' -> w_fs w' = w_fs w) -> wt P (t_call c) (fun _ => P).
Proof. intros S H. apply w_call; [exact S|intros; exact S|]. intros x w w' Hp T. rewrite (H x w w' T). split; [apply G_refl|auto]. Qed.
Lemma wt_ensure {A} P b e (k : unit -> trace A) (Q : outcome cerr A -> fs -> Prop) : st_ P -> (forall f, P f -> Q (Err e) f) -> (b = true -> wt P (k tt) Q) -> wt P (t_bind (t_lift (ensure b e)) k) Q.
Proof.
  intros S He Hk. eapply w_bind with (R := fun r f => r = ensure b e /\ P f).
  - apply w_lift; [auto|]. apply stable_and; [apply stable_const|exact S].
  - intros []. apply w_and. intros E. apply Hk. destruct b; [reflexivity|discriminate E].
  - intros e' g [E Hp]. destruct b; [discriminate E|]. injection E as ->. auto.
  - intros g [E _]. destruct b; discriminate E.
Qed.

Lemma wt_open_other p D : wt (kept None D) (open_file_p trace (any_os lib) p) (fun _ => kept None D).
Proof.
  unfold open_file_p. cbn [any_os p_bind p_open_read p_stat p_lift p_ret].
  eapply w_bind with (R := fun _ => kept None D); [apply wt_quiet; [apply stable_kept|intros x w w' [-> _]; reflexivity]| |auto|auto]. intros rd.
  eapply w_bind with (R := fun _ => kept None D); [apply wt_quiet; [apply stable_kept|intros x w w' [-> _]; reflexivity]| |auto|auto]. intros md.
  apply wt_ensure; [apply stable_kept|auto|]. intros _. apply w_ret; [auto|apply stable_kept].
Qed.
Definition opened_file (p : path) (D : list io_stream) (r : outcome cerr (reader * metadata)) (f : fs) : Prop :=
  kept None D f /\ forall rd md, r = Ok (rd, md) -> m_type md = FRegular -> m_nlink md = 1 ->
    exists s i b, concerns entry_of all s /\ entry_of p = Some s /\ file_at f s i b /\ rd = ReadNode i.
Lemma stable_opened p D r : st_ (opened_file p D r).
Proof.
  apply stable_and; [apply stable_kept|]. intros f g O K rd md E E1 E2. destruct (K rd md E E1 E2) as (s & i & b & A & B & C & F).
  exists s, i, b. split; [exact A|]. split; [exact B|]. split; [|exact F]. eapply intact_file; [apply (proj2 O), A|exact C].
Qed.
Lemma wt_open_file st p D : In st all -> s_input st = IFile p -> wt (kept None D) (open_file_p trace (any_os lib) p) (opened_file p D).
Proof.
  intros Hst Ei. unfold open_file_p. cbn [any_os p_bind p_open_read p_stat p_lift p_ret].
  assert (Con : forall s, entry_of p = Some s -> concerns entry_of all s) by (intros s Es; eapply concerns_input; eassumption).
  set (R1 := fun (r : outcome cerr reader) f => kept None D f /\ forall rd s i, r = Ok rd -> entry_of p = Some s -> f_entries f s = Some (EFile i) -> rd = ReadNode i).
  assert (SR1 : forall r, st_ (R1 r)).
  { intros r f g O [K L]. split; [eapply stable_kept; eassumption|]. intros rd s i E Es Ef. eapply L; [exact E|exact Es|]. destruct (proj2 O s (Con s Es)) as [X _]. congruence. }
  eapply w_bind with (R := R1); [| |intros e g [K _]; split; [exact K|discriminate]|intros g [K _]; split; [exact K|discriminate]].
  - apply w_call; [apply stable_kept|exact SR1|]. intros x w w' K [-> T]. split; [apply G_refl|]. intros _. split; [exact K|].
    intros rd s i -> Es Ef. destruct T as [[T _]|(s' & t & Es' & Fo & T)]; [discriminate T|]. assert (s' = s) by congruence. subst s'.
    unfold max_links in Fo. cbn [follow] in Fo. rewrite Ef in Fo. injection Fo as <-. destruct T as [(j & Ej & E)|[Ed _]]; [|congruence]. assert (j = i) by congruence. subst j. congruence.
  - intros rd. eapply w_bind with (R := fun r f => match r with Ok md => opened_file p D (Ok (rd, md)) f | _ => kept None D f end).
    + apply w_call; [apply SR1|intros [md|e|]; [apply stable_opened|apply stable_kept|apply stable_kept]|]. intros x w w' [K L] [-> T]. split; [apply G_refl|]. intros Nx.
      destruct x as [md|e|]; [|exact K|exact K]. split; [exact K|]. intros rd' md' [= <- <-] Et El.
      destruct T as [[T _]|(s & md' & Es & Em & T)]; [discriminate T|]. injection T as <-. unfold metadata_of in Em.
      destruct (f_entries (w_fs w) s) as [[i|t|]|] eqn:Ef; try discriminate Em; try (injection Em as <-; discriminate Et).
      destruct (f_nodes (w_fs w) i) as [[reg b l]|] eqn:En; [|discriminate Em]. injection Em as <-. cbn [m_type m_nlink n_regular n_links] in *. destruct reg; [|discriminate Et]. subst l.
      exists s, i, b. split; [apply Con, Es|]. split; [exact Es|]. split; [split; assumption|]. eapply L; [reflexivity|exact Es|exact Ef].
    + intros md. apply wt_ensure; [apply stable_opened|intros f [K _]; split; [exact K|discriminate]|]. intros _. apply w_ret; [auto|apply stable_opened].
    + intros e g K. split; [exact K|discriminate].
    + intros g K. split; [exact K|discriminate].
Qed.

Definition opened_input (st : io_stream) (D : list io_stream) (r : outcome cerr reader) (f : fs) : Prop :=
  kept None D f /\ forall rd, r = Ok rd -> input_known st rd f.
Lemma stable_opened_input st D r : st_ (opened_input st D r).
Proof. apply stable_and; [apply stable_kept|]. intros f g O K rd E. eapply stable_input_known; [exact O|]. apply K, E. Qed.
Lemma wt_open_input st D : In st all -> wt (kept None D) (open_input_p trace (any_os lib) (s_input st) false) (opened_input st D).
Proof.
  intros Hst. unfold open_input_p. destruct (s_input st) as [p|p|] eqn:Ei; cbn [any_os p_bind p_lift p_ret p_stdin].
  - eapply w_bind; [apply (wt_open_file st p D Hst Ei)| |intros e g [K _]; split; [exact K|discriminate]|intros g [K _]; split; [exact K|discriminate]].
    intros [rd md]. assert (Er : forall (e : cerr) f, opened_file p D (Ok (rd, md)) f -> opened_input st D (Err e) f) by (intros e f [K _]; split; [exact K|discriminate]).
    apply wt_ensure; [apply stable_opened|auto|]. intros E1. apply wt_ensure; [apply stable_opened|auto|]. intros E2. apply wt_ensure; [apply stable_opened|auto|]. intros E3.
    apply w_ret; [|apply stable_opened_input]. intros f [K L]. split; [exact K|]. intros rd' [= <-] p' Ep. assert (p' = p) by congruence. subst p'.
    cbn [orb] in *. apply N.eqb_eq in E2. apply (L rd md eq_refl); [destruct (m_type md); congruence|exact E2].
  - eapply w_bind; [apply (wt_open_other p D)| |intros e g K; split; [exact K|discriminate]|intros g K; split; [exact K|discriminate]].
    intros [rd md]. apply w_ret; [|apply stable_opened_input]. intros f K. split; [exact K|]. intros rd' _ p' Ep. congruence.
  - intros u r h u' w K H. unfold t_stdin in H. destruct (u_input u) as [s|]; destruct H as (-> & -> & H).
    + assert (T' : forall w1 w2, takes entry_of (STakeStdin s) w1 w2 -> w_fs w2 = w_fs w1).
      { intros w1 w2 T. cbn [takes] in T. unfold open_stdin in T. destruct (u_input (w_ui w1)); destruct T as [_ ->]; reflexivity. } split.
      * intros b e a w1 w2 E Hs T. apply split_one in E as (-> & -> & _). rewrite (T' _ _ T). apply G_refl.
      * intros x w' Ex Hs. destruct (stable_one _ _ _ _ _ _ (stable_kept None D) K Hs) as (w1 & w2 & K1 & T & Hs2).
        split; [eapply stable_nil; [apply stable_kept| |exact Hs2]; rewrite (T' _ _ T); exact K1|]. intros rd _ p Ep. congruence.
    + split; [intros b e a w1 w2 E; destruct (split_nil _ _ _ E)|]. intros x w' Ex Hs. split; [|intros rd _ p Ep; congruence]. eapply stable_nil; [apply stable_kept|exact K|exact Hs].
Qed.

(** The output is open and everything else is as before. *)
Definition ready_at (st : io_stream) (D : list io_stream) (o : output_stream) (rd : reader) (wr : writer) (empty : bool) (f : fs) : Prop :=
  match o with
  | OStdout => wr = WriteStdout /\ kept None D f
  | OFile q => exists t k c, entry_of q = Some t /\ wr = WriteNode k /\ (empty = true -> c = []) /\ f_entries f0 t = None /\ file_at f t k c /\ kept (Some t) D f /\
      forall p s, s_input st = IFile p -> entry_of p = Some s -> s <> t
  end.
Lemma stable_ready_at st D o rd wr em : In st all -> s_output st = Ok o -> st_ (ready_at st D o rd wr em).
Proof.
  intros Hst Eo f g O K. destruct o as [q|]; cbn [ready_at] in *.
  - destruct K as (t & k & c & A & B & C & E & F & H & L). exists t, k, c. do 4 (split; [assumption|]).
    split; [eapply intact_file; [apply (proj2 O); eapply concerns_output; eassumption|exact F]|]. split; [eapply stable_kept; eassumption|exact L].
  - destruct K as [A B]. split; [exact A|]. eapply stable_kept; eassumption.
Qed.
Definition ready_result (st : io_stream) (D : list io_stream) (o : output_stream) (rd : reader) (r : outcome cerr writer) (f : fs) : Prop :=
  match r with Ok wr => ready_at st D o rd wr true f /\ input_known st rd f | _ => kept None D f end.
Lemma stable_ready_result st D o rd r : In st all -> s_output st = Ok o -> st_ (ready_result st D o rd r).
Proof. intros Hst Eo. destruct r as [wr|e|]; [|apply stable_kept|apply stable_kept]. apply stable_and; [apply stable_ready_at; assumption|apply stable_input_known]. Qed.

Lemma wt_open_output st D o rd : In st all -> s_output st = Ok o ->
  wt (opened_input st D (Ok rd)) (open_output_p trace (any_os lib) o false) (ready_result st D o rd).
Proof.
  intros Hst Eo. unfold open_output_p. destruct o as [q|]; cbn [any_os p_create_new p_ret].
  - apply w_call; [apply stable_opened_input|intros x; apply stable_ready_result; assumption|]. intros x w w' [K L] [(-> & -> & _)|(t & k & Et & Nt & [U1 U2] & -> & ->)].
    + split; [apply G_refl|]. intros _. exact K.
    + cbn [set_fs w_fs]. set (f := w_fs w) in *. set (g := add_file f t k).
      assert (Ct : concerns entry_of all t) by (eapply concerns_output; eassumption). destruct K as [[W B] K].
      assert (F0 : f_entries f0 t = None). { destruct (f_entries f0 t) eqn:X; [|reflexivity]. destruct (B t Ct); congruence. }
      assert (Cr : created f t k [] g) by (unfold g, add_file, created, update; cbn [f_entries f_nodes]; split; intros; reflexivity).
      assert (Fr : fresh f t k) by (split; [exact Nt|split; assumption]). pose proof (created_extends _ _ _ _ _ Fr Cr) as Ex. pose proof (created_wf _ _ _ _ _ Fr Cr W) as Wg.
      assert (At : file_at g t k []) by (destruct Cr as [C1 C2]; split; [rewrite C1, N.eqb_refl|rewrite C2, N.eqb_refl]; reflexivity).
      assert (Fx : forall s i b, file_at f s i b -> file_at g s i b) by (intros s i b X; eapply intact_file; [|exact X]; apply Ex; destruct X; congruence).
      split.
      * intros s. destruct (f_entries f s) eqn:Es; [left; apply Ex; congruence|]. destruct (N.eq_dec s t) as [->|Ns].
        -- right; left. split; [exact F0|]. exists st, q. auto.
        -- left. destruct Cr as [C1 _]. split; [rewrite C1; destruct (N.eqb_spec s t); [contradiction|reflexivity]|]. intros i X. congruence.
      * intros _. split.
        -- exists t, k, []. split; [exact Et|]. split; [reflexivity|]. split; [reflexivity|]. split; [exact F0|]. split; [exact At|]. split.
           ++ split.
              ** split; [exact Wg|]. intros s Cs N0. destruct Cr as [C1 _]. rewrite C1. destruct (N.eqb_spec s t); [discriminate|]. apply B; assumption.
              ** intros st' I'. destruct (K st' I') as [I1 F]. split; [exact I1|]. pose proof (finished_avoid (Some t) t f st' F eq_refl Nt) as F'. eapply finished_change; [exact I1| |exact F']. intros s i b _ _. apply Fx.
           ++ intros p s Ep Es ->. destruct (L rd eq_refl p Ep) as (s' & i & b & _ & Es' & [X _] & _). congruence.
        -- intros p Ep. destruct (L rd eq_refl p Ep) as (s & i & b & X1 & X2 & X3 & X4). exists s, i, b. auto.
  - apply w_ret.
    + intros f [K L]. split; [split; [reflexivity|exact K]|]. apply L. reflexivity.
    + apply (stable_ready_result st D OStdout rd (Ok WriteStdout) Hst Eo).
Qed.

(** Converting *)
Definition convert_result (st : io_stream) (D : list io_stream) (o : output_stream) (rd : reader) (wr : writer) (r : outcome cerr unit) (f : fs) : Prop :=
  match r with Ok _ => kept None (D ++ [st]) f | Err _ => ready_at st D o rd wr false f | Panic => True end.
Lemma stable_convert_result st D o rd wr r : In st all -> s_output st = Ok o -> st_ (convert_result st D o rd wr r).
Proof. intros Hst Eo. destruct r; [apply stable_kept|apply stable_ready_at; assumption|apply stable_true]. Qed.

Lemma convert_step st D o rd wr d' src out x w w' : In st all -> s_output st = Ok o -> ready_at st D o rd wr true (w_fs w) -> input_known st rd (w_fs w) ->
  takes entry_of (SConvert d' rd wr src out x) w w' ->
  G (w_fs w) (w_fs w') /\ ready_at st D o rd wr false (w_fs w') /\
  (ends_in_error src = false -> is_conversion lib d (flat src) out -> kept None (D ++ [st]) (w_fs w')).
Proof.
  intros Hst Eo Ra Ik [Pr (lines & ->)]. cbv zeta. cbn [set_ui w_fs]. destruct o as [q|]; cbn [ready_at] in Ra.
  - destruct Ra as (t & k & c & Et & -> & Em & F0 & At & K & Ns). specialize (Em eq_refl). subst c. set (f := w_fs w) in *.
    destruct (write_out_fs k out w _ (proj2 At) eq_refl) as [E1 E2]. cbn [n_content n_links] in E2. fold f in E1, E2. set (g := w_fs (write_out (WriteNode k) out w)) in *.
    destruct K as [[W B] K].
    assert (In' : forall s, s <> t -> intact f g s).
    { intros s N. split; [rewrite E1; reflexivity|]. intros i X. rewrite E2. destruct (N.eqb_spec i k) as [->|]; [|reflexivity]. destruct N. exact (sole f t s k [] W At X). }
    assert (Atg : file_at g t k out). { destruct At as [A1 A2]. split; [rewrite E1; exact A1|]. rewrite E2, N.eqb_refl. reflexivity. }
    assert (Wg : wf_fs g).
    { destruct W as [W1 W2]. split.
      - intros s i. rewrite E1. intros X. rewrite E2. destruct (N.eqb_spec i k) as [->|]; [eexists; split; [reflexivity|cbn; lia]|]. apply (W1 s i X).
      - intros s u i n. rewrite E1. intros X Y N. rewrite E2. destruct (N.eqb_spec i k) as [->|]; [|apply (W2 s u i n X Y N)].
        exfalso. apply N. rewrite (sole f t s k [] (conj W1 W2) At X), (sole f t u k [] (conj W1 W2) At Y). reflexivity. }
    assert (Bg : base g) by (split; [exact Wg|intros s Cs N0; rewrite E1; apply B; assumption]).
    assert (Kg : kept (Some t) D g).
    { split; [exact Bg|]. intros st' I'. destruct (K st' I') as [I1 F]. split; [exact I1|]. eapply finished_change; [exact I1| |exact F]. intros s i b _ N. apply intact_file, In'. congruence. }
    split; [|split].
    + intros s. destruct (N.eq_dec s t) as [->|N]; [|left; apply In', N]. right; left. split; [exact F0|]. exists st, q. auto.
    + exists t, k, out. split; [exact Et|]. split; [reflexivity|]. split; [discriminate|]. split; [exact F0|]. split; [exact Atg|]. split; [exact Kg|exact Ns].
    + intros Ee Cv. destruct Kg as [_ Kg]. split; [exact Bg|]. intros st' I'. apply in_app_iff in I' as [I'|[<-|[]]].
      * destruct (Kg st' I') as [I1 F]. split; [exact I1|]. eapply finished_forget, F.
      * split; [exact Hst|]. right. exists q, t, k, out, (flat src). split; [exact Eo|]. split; [exact Et|]. split; [exact Atg|]. split; [exact Cv|]. split; [discriminate|].
        intros p Ep. destruct (Ik p Ep) as (s & i & b & Cs & Es & Fs & ->). exists s, i. split; [exact Es|]. split; [|discriminate].
        pose proof (Ns p s Ep Es) as N. pose proof (intact_file _ _ _ _ _ (In' s N) Fs) as Fs'.
        assert (Nik : WriteNode k <> WriteNode i). { intros [= ->]. apply N. exact (sole f t s i [] W At (proj1 Fs)). }
        cbn [provides] in Pr. rewrite (proj2 Fs) in Pr. specialize (Pr eq_refl Nik). rewrite Ee in Pr. cbn [n_content] in Pr. rewrite Pr. exact Fs'.
  - destruct Ra as [-> K]. cbn [write_out w_fs]. split; [apply G_refl|]. split; [split; [reflexivity|exact K]|].
    intros _ _. destruct K as [B K]. split; [exact B|]. intros st' I'. apply in_app_iff in I' as [I'|[<-|[]]]; [auto|]. split; [exact Hst|]. left. exact Eo.
Qed.

Lemma wt_convert st D o rd wr : In st all -> s_output st = Ok o ->
  wt (fun f => ready_at st D o rd wr true f /\ input_known st rd f) (t_convert lib d rd wr) (convert_result st D o rd wr).
Proof.
  intros Hst Eo u r h u' w Hp (er & src & room & fl & r0 & snk & lines & Hr & Hs & Hc & -> & Dd).
  assert (SP : st_ (fun f => ready_at st D o rd wr true f /\ input_known st rd f)) by (apply stable_and; [apply stable_ready_at; assumption|apply stable_input_known]).
  assert (Gd : r0 = Ok tt -> ends_in_error src = false /\ is_conversion lib d (flat src) (w_out snk)).
  { intros ->. pose proof (conversion_reads_all lib Hlib _ _ _ _ _ Hr Hc) as E. split; [exact E|]. exists er, src, room, fl, snk. auto 10. }
  assert (exists out x, h = [SConvert d rd wr src out x] /\ (forall y, r = Some y -> y <> Panic -> out = w_out snk /\ y = conversion_result r0)) as (out & x & -> & Hy).
  { destruct Dd as [(-> & ->)|(out & _ & -> & Dd)]; eexists _, _; (split; [reflexivity|]); intros y E N; [split; congruence|]. destruct Dd as [Dd|Dd]; rewrite Dd in E; congruence. }
  split.
  - intros b e a w1 w2 E Hsh T. apply split_one in E as (-> & -> & _). destruct (stable_nil _ _ _ _ _ SP Hp Hsh) as [R1 R2]. exact (proj1 (convert_step st D o rd wr _ _ _ _ _ _ Hst Eo R1 R2 T)).
  - intros y w' Ey Hsh. destruct (stable_one _ _ _ _ _ _ SP Hp Hsh) as (w1 & w2 & [R1 R2] & T & Hs2). eapply stable_nil; [apply stable_convert_result; assumption| |exact Hs2].
    destruct (convert_step st D o rd wr _ _ _ _ _ _ Hst Eo R1 R2 T) as (_ & K1 & K2). destruct y as [[]|e|]; cbn [convert_result]; [|exact K1|exact I].
    destruct (Hy _ Ey) as [-> E]; [discriminate|]. destruct Gd as [G1 G2]; [destruct r0 as [[]| |]; congruence || discriminate E|]. auto.
Qed.

Definition attempted_at (st : io_stream) (D : list io_stream) (r : outcome cerr (outcome cerr unit * option path)) (f : fs) : Prop :=
  match r with
  | Ok (Ok _, _) => kept None (D ++ [st]) f
  | Ok (Err _, None) => kept None D f
  | Ok (Err _, Some q) => s_output st = Ok (OFile q) /\ exists rd wr, ready_at st D (OFile q) rd wr false f
  | Ok (Panic, _) => False
  | _ => True
  end.
Lemma wt_attempt {k n} st D : In st all -> wt (kept None D) (attempt_p trace (any_os lib) k n st false d) (attempted_at st D).
Proof.
  intros Hst. unfold attempt_p. cbn [any_os p_bind p_try p_ui p_lift p_ret p_convert].
  set (Op := fun (x : outcome cerr (reader * writer * option path)) f =>
    match x with Ok (rd, wr, cb) => exists o, s_output st = Ok o /\ cb = output_cleanup o /\ ready_at st D o rd wr true f /\ input_known st rd f | _ => kept None D f end).
  eapply w_bind with (R := fun r f => match r with Ok x => x <> Panic /\ Op x f | _ => True end); [| |intros; exact I|intros; exact I].
  - eapply w_try with (R := Op); [|intros x g N K; split; assumption|intros; exact I].
    eapply w_bind with (R := fun _ => kept None D); [apply w_term; [apply stable_kept|apply G_refl|auto]| |auto|auto]. intros _.
    eapply w_bind with (R := fun r f => r = s_output st /\ kept None D f); [apply w_lift; [auto|apply stable_and; [apply stable_const|apply stable_kept]]| |intros e g [_ K]; exact K|intros g [_ K]; exact K].
    intros o. apply w_and. intros Eo. symmetry in Eo.
    eapply w_bind; [apply (wt_open_input st D Hst)| |intros e g [K _]; exact K|intros g [K _]; exact K]. intros rd.
    eapply w_bind; [apply (wt_open_output st D o rd Hst Eo)| |intros e g K; exact K|intros g K; exact K]. intros wr.
    apply w_ret; [intros f [K L]; exists o; auto|]. apply stable_ex. intros o'. intros f g O (A & B & C & E). split; [exact A|]. split; [exact B|].
    split; [eapply stable_ready_at; eassumption|eapply stable_input_known; eassumption].
  - intros [[[rd wr] cb]|e|].
    + eapply w_pre with (P' := fun f => exists o, (s_output st = Ok o /\ cb = output_cleanup o) /\ ready_at st D o rd wr true f /\ input_known st rd f).
      2: { intros f (_ & o & A & B & C & E). exists o. auto. }
      apply w_exists. intros o. apply w_and. intros [Eo ->].
      eapply w_bind with (R := fun r f => match r with Ok x => x <> Panic /\ convert_result st D o rd wr x f | _ => True end); [| |intros; exact I|intros; exact I].
      * eapply w_try; [apply (wt_convert st D o rd wr Hst Eo)|intros x g N K; split; assumption|intros; exact I].
      * intros r. apply w_ret.
        -- intros f [N K]. destruct r as [[]|e|]; cbn [convert_result attempted_at] in *; [exact K| |destruct (N eq_refl)]. destruct o as [q|]; cbn [output_cleanup]; [|exact (proj2 K)]. split; [exact Eo|]. exists rd, wr. exact K.
        -- destruct r as [[]|e|]; cbn [attempted_at]; [apply stable_kept| |apply stable_const]. destruct o as [q|]; cbn [output_cleanup]; [|apply stable_kept].
           apply stable_and; [apply stable_const|]. apply stable_ex. intros rd'. apply stable_ex. intros wr'. apply stable_ready_at; assumption.
    + apply w_ret; [intros f [_ K]; exact K|apply stable_kept].
    + apply w_lift; [intros; exact I|apply stable_const].
Qed.

(** Removing a file that nothing else refers to *)
Lemma remove_step q t k c w x w' : entry_of q = Some t -> wf_fs (w_fs w) -> file_at (w_fs w) t k c -> remove_file entry_of q w x w' ->
  w_fs w' = w_fs w \/ (w_fs w' = unlink (w_fs w) t /\ wf_fs (w_fs w') /\ f_entries (w_fs w') t = None /\ forall s, s <> t -> intact (w_fs w) (w_fs w') s).
Proof.
  intros Et W At T. unfold remove_file in T. rewrite Et, (proj1 At) in T. destruct T as [(_ & _ & ->)|(_ & ->)]; [left; reflexivity|]. right. cbn [set_fs w_fs]. split; [reflexivity|].
  apply (unlink_plain _ _ _ W (file_at_plain _ _ _ _ At)).
Qed.
Lemma wt_remove_failed st D q : In st all -> s_output st = Ok (OFile q) ->
  wt (fun f => exists rd wr, ready_at st D (OFile q) rd wr false f) (remove_cb_p trace (any_os lib) q false) (fun _ => kept None D).
Proof.
  intros Hst Eo. unfold remove_cb_p. cbn [any_os p_bind p_try p_ui p_remove p_ret]. eapply w_bind with (R := fun _ => kept None D); [| |auto|auto].
  - eapply w_try with (R := fun _ => kept None D); [|auto|auto]. apply w_call.
    + apply stable_ex. intros rd. apply stable_ex. intros wr. apply stable_ready_at; assumption.
    + intros _. apply stable_kept.
    + intros x w w' (rd & wr & t & k & c & Et & -> & _ & F0 & At & [[W B] K] & _) T. cbn [takes] in T.
      destruct (remove_step _ _ _ _ _ _ _ Et W At T) as [->|(_ & W' & Nt & In')].
      * split; [apply G_refl|]. intros _. split; [split; assumption|]. intros st' I'. destruct (K st' I'). split; [assumption|]. eapply finished_forget; eassumption.
      * split.
        -- intros s. destruct (N.eq_dec s t) as [->|N]; [|left; apply In', N]. right; left. split; [exact F0|]. exists st, q. auto.
        -- intros _. split.
           ++ split; [exact W'|]. intros s Cs N0. destruct (N.eq_dec s t) as [->|N]; [contradiction|]. destruct (In' s N) as [E _]. rewrite E. apply B; assumption.
           ++ intros st' I'. destruct (K st' I') as [I1 F]. split; [exact I1|]. apply (finished_forget (Some t)). eapply finished_change; [exact I1| |exact F]. intros s i b _ N. apply intact_file, In'. congruence.
  - intros [[]|e|]; [apply w_ret; [auto|apply stable_kept]| |apply w_ret; [auto|apply stable_kept]]. apply w_term; [apply stable_kept|apply G_refl|auto].
Qed.

Definition stepped (st : io_stream) (D : list io_stream) (r : outcome cerr (list path * list cerr)) (f : fs) : Prop :=
  match r with
  | Ok (cbs, []) => kept None (D ++ [st]) f /\ cbs = input_cleanup (s_input st)
  | Ok (cbs, _ :: _) => kept None D f /\ cbs = []
  | _ => True
  end.
Lemma wt_step {k n} st D : In st all -> wt (kept None D) (step_p trace (any_os lib) k n st false d) (stepped st D).
Proof.
  intros Hst. unfold step_p. cbn [any_os p_bind p_ui p_ret p_lift]. eapply w_bind; [apply (wt_attempt st D Hst)| |intros; exact I|intros; exact I]. intros [[[]|e|] cb].
  - apply w_ret; [intros f K; split; [exact K|reflexivity]|]. apply stable_and; [apply stable_kept|apply stable_const].
  - eapply w_bind with (R := fun _ => attempted_at st D (Ok (Err e, cb))).
    + assert (S : st_ (attempted_at st D (Ok (Err e, cb)))).
      { destruct cb as [q|]; cbn [attempted_at]; [|apply stable_kept]. intros f g O [Eo K]. split; [exact Eo|]. revert f g O K. apply (stable_ex (fun rd f => exists wr, ready_at st D (OFile q) rd wr false f)).
        intros rd. apply stable_ex. intros wr. apply stable_ready_at; assumption. }
      apply w_term; [exact S|apply G_refl|auto].
    + intros _. eapply w_bind with (R := fun _ => kept None D); [| |intros; exact I|intros; exact I].
      * destruct cb as [q|]; cbn [attempted_at]; [|apply w_ret; [auto|apply stable_kept]]. apply w_and. intros Eo. apply (wt_remove_failed st D q Hst Eo).
      * intros _. apply w_ret; [intros f K; split; [exact K|reflexivity]|]. apply stable_and; [apply stable_kept|apply stable_const].
    + intros; exact I.
    + intros; exact I.
  - apply w_lift; [intros f []|]. apply stable_const.
Qed.

(** What is done when all streams were tried. *)
Definition processed (l : list io_stream) (D : list io_stream) (r : outcome cerr (list path * list cerr)) (f : fs) : Prop :=
  match r with
  | Ok (cbs, errors) => exists D', kept None (D ++ D') f /\ (forall p, In p cbs -> exists st, In st D' /\ s_input st = IFile p) /\ (errors = [] -> D' = l)
  | _ => True
  end.
Lemma stable_processed l D r : st_ (processed l D r).
Proof.
  destruct r as [[cbs errors]|e|]; cbn [processed]; [|apply stable_const|apply stable_const]. apply stable_ex. intros D'. apply stable_and; [apply stable_kept|apply stable_const].
Qed.
Lemma wt_process {k n} l : forall D, incl l all -> wt (kept None D) (process_p trace (any_os lib) k n l false d) (processed l D).
Proof.
  revert k. induction l as [|st l IH]; intros k D Hi; cbn [process_p]; cbn [any_os p_bind p_ui p_ret] in *.
  - apply w_ret; [|apply stable_processed]. intros f K. exists []. rewrite app_nil_r. split; [exact K|]. split; [intros p []|auto].
  - eapply w_bind; [apply (wt_step st D), Hi; left; reflexivity| |intros; exact I|intros; exact I]. intros [cbs errors].
    eapply w_bind with (R := fun _ => stepped st D (Ok (cbs, errors))); [| |intros; exact I|intros; exact I].
    + apply w_term; [|apply G_refl|auto]. destruct errors; cbn [stepped]; apply stable_and; (apply stable_kept || apply stable_const).
    + intros _.
      set (D1 := match errors with [] => D ++ [st] | _ => D end). set (C1 := match errors with [] => input_cleanup (s_input st) | _ => [] end).
      eapply w_pre with (P' := fun f => cbs = C1 /\ kept None D1 f); [|intros f K; unfold C1, D1; destruct errors; cbn [stepped] in K; tauto].
      apply w_and. intros ->. eapply w_bind; [apply (IH _ D1); intros x I; apply Hi; right; exact I| |intros; exact I|intros; exact I]. intros [cbs' errors'].
      apply w_ret; [|apply stable_processed]. intros f (D' & K & Hc & He). unfold C1, D1 in *. destruct errors as [|e errors].
      * exists (st :: D'). rewrite <- app_assoc in K. split; [exact K|]. split.
        -- intros p I. apply in_app_iff in I as [I|I].
           ++ unfold input_cleanup in I. destruct (s_input st) eqn:Ei; [destruct I as [<-|[]]|destruct I|destruct I]. exists st. split; [left; reflexivity|exact Ei].
           ++ destruct (Hc p I) as (st' & I1 & I2). exists st'. split; [right; exact I1|exact I2].
        -- cbn [app]. intros E. rewrite (He E). reflexivity.
      * exists D'. split; [exact K|]. split; [exact Hc|discriminate].
Qed.

(** ** Removing the originals *)
Hypothesis Hsep : separate entry_of all.
Hypothesis Hff : file_to_file all.

Definition finished_or_gone (f : fs) (st : io_stream) : Prop :=
  s_output st = Ok OStdout \/
  exists q t j c b, s_output st = Ok (OFile q) /\ entry_of q = Some t /\ file_at f t j c /\ is_conversion lib d b c /\
    forall p, s_input st = IFile p -> exists s, entry_of p = Some s /\ ((exists i, file_at f s i b) \/ f_entries f s = None).
Definition kept_or_gone (D : list io_stream) (f : fs) : Prop := wf_fs f /\ forall st, In st D -> In st all /\ finished_or_gone f st.
Lemma finished_gone f st : finished None f st -> finished_or_gone f st.
Proof.
  intros [E|(q & t & j & c & b & A & B & C & E & _ & F)]; [left; exact E|]. right. exists q, t, j, c, b. do 4 (split; [assumption|]). intros p Ep. destruct (F p Ep) as (s & i & K & L & _). exists s. split; [exact K|]. left. exists i. exact L.
Qed.
Lemma finished_gone_change f g st : In st all -> (forall s, concerns entry_of all s -> intact f g s \/ (f_entries g s = None /\ exists st' p, In st' all /\ s_input st' = IFile p /\ entry_of p = Some s)) ->
  finished_or_gone f st -> finished_or_gone g st.
Proof.
  intros I H [E|(q & t & j & c & b & A & B & C & E & F)]; [left; exact E|]. right. exists q, t, j, c, b. split; [exact A|]. split; [exact B|]. split.
  - destruct (H t) as [K|(_ & st' & p & I' & Ei & Ep)]; [eapply concerns_output; eassumption|eapply intact_file; eassumption|]. destruct (Hsep st' st p q t I' I Ei A Ep B).
  - split; [exact E|]. intros p Ep. destruct (F p Ep) as (s & Es & K). exists s. split; [exact Es|]. destruct (H s) as [L|(L & _)]; [eapply concerns_input; eassumption| |auto].
    destruct K as [[i K]|K]; [left; exists i; eapply intact_file; eassumption|]. right. destruct L as [L _]. congruence.
Qed.
Lemma stable_kept_or_gone D : st_ (kept_or_gone D).
Proof.
  intros f g [W O] [_ K]. split; [exact W|]. intros st I. destruct (K st I) as [I1 F]. split; [exact I1|]. eapply finished_gone_change; [exact I1| |exact F]. intros s C. left. apply O, C.
Qed.
Lemma wt_remove_all D l : (forall p, In p l -> exists st, In st D /\ s_input st = IFile p) ->
  wt (kept_or_gone D) (remove_all_p trace (any_os lib) l false) (fun _ => kept_or_gone D).
Proof.
  induction l as [|p l IH]; intros Hl; cbn [remove_all_p]; cbn [any_os p_bind p_ret] in *; [apply w_ret; [auto|apply stable_kept_or_gone]|].
  eapply w_bind with (R := fun _ => kept_or_gone D); [|intros []; apply IH; intros q I; apply Hl; right; exact I|auto|auto].
  destruct (Hl p (or_introl eq_refl)) as (st & Hst & Ei).
  unfold remove_cb_p. cbn [any_os p_bind p_try p_remove p_ui p_ret]. eapply w_bind with (R := fun _ => kept_or_gone D); [| |auto|auto].
  - eapply w_try with (R := fun _ => kept_or_gone D); [|auto|auto]. apply w_call; [apply stable_kept_or_gone|intros; apply stable_kept_or_gone|].
    intros x w w' [W K] T. cbn [takes] in T. destruct (K st Hst) as [Ia F].
    destruct F as [E|(q & t & j & c & b & A & B & C & E & F)]; [destruct (Hff st p Ia Ei E)|]. destruct (F p Ei) as (s & Es & [[i At]|Ns]).
    + destruct (remove_step _ _ _ _ _ _ _ Es W At T) as [->|(_ & W' & Nt & In')]; [split; [apply G_refl|]; intros _; split; assumption|]. split.
      * intros s'. destruct (N.eq_dec s' s) as [->|N]; [|left; apply In', N]. right; right. split; [exact Nt|]. exists st, q, b. split; [exact Ia|]. split; [exists p; auto|].
        split; [eapply file_at_plain; eassumption|]. exists t, c. split; [exact B|]. split; [|exact E]. eapply file_at_plain, intact_file; [apply In'|exact C].
        intros ->. destruct (Hsep st st p q s Ia Ia Ei A Es B).
      * intros _. split; [exact W'|]. intros st' I'. destruct (K st' I') as [I1 F']. split; [exact I1|]. eapply finished_gone_change; [exact I1| |exact F'].
        intros s' Cs. destruct (N.eq_dec s' s) as [->|N]; [|left; apply In', N]. right. split; [exact Nt|]. exists st, p. auto.
    + unfold remove_file in T. rewrite Es, Ns in T. destruct T as [_ ->]. split; [apply G_refl|]. intros _. split; assumption.
  - intros [[]|e|]; [apply w_ret; [auto|apply stable_kept_or_gone]| |apply w_ret; [auto|apply stable_kept_or_gone]]. apply w_term; [apply stable_kept_or_gone|apply G_refl|auto].
Qed.

Lemma wt_crypt policy : wt (kept None []) (crypt_streams_p trace (any_os lib) all policy false d) (fun r f => r = Ok tt -> kept_or_gone all f).
Proof.
  unfold crypt_streams_p. cbn [any_os p_bind p_ui p_ret p_lift]. eapply w_bind; [apply (wt_process all []); intros x I; exact I| |discriminate|discriminate]. intros [cbs errors].
  apply w_exists. intros D. cbn [app].
  eapply w_pre with (P' := fun f => ((forall p, In p cbs -> exists st, In st D /\ s_input st = IFile p) /\ (errors = [] -> D = all)) /\ kept_or_gone D f).
  2: { intros f ([[W _] K] & H). split; [exact H|]. split; [exact W|]. intros st I. destruct (K st I). split; [assumption|]. apply finished_gone. assumption. }
  apply w_and. intros [Hc He].
  eapply w_bind with (R := fun _ => kept_or_gone D); [| |discriminate|discriminate].
  - destruct cbs as [|p cbs]; [apply w_ret; [auto|apply stable_kept_or_gone]|].
    eapply w_bind with (R := fun _ => kept_or_gone D); [| |auto|auto].
    + destruct policy; [apply w_ret; [auto|apply stable_kept_or_gone]..|].
      eapply w_bind with (R := fun _ => kept_or_gone D); [apply w_term; [apply stable_kept_or_gone|apply G_refl|auto]| |auto|auto]. intros a. apply w_ret; [auto|apply stable_kept_or_gone].
    + intros []; [apply wt_remove_all, Hc|apply w_ret; [auto|apply stable_kept_or_gone]].
  - intros []. apply w_lift.
    + intros f K E. destruct errors; [|discriminate E]. rewrite <- (He eq_refl). exact K.
    + intros f g O K E. eapply stable_kept_or_gone; [exact O|auto].
Qed.
End Shared.

(** ** The start *)
Lemma shared_steps entry_of lib streams policy d u r h u' w : lib_ok lib -> wf_fs (w_fs w) -> separate entry_of streams -> file_to_file streams ->
  crypt_calls lib streams policy false d u r h u' ->
  (forall b e w1 w2, happens h b e -> shared entry_of (leave_alone entry_of streams) w b w1 -> takes entry_of e w1 w2 -> allowed_step entry_of lib streams d (w_fs w) (w_fs w1) (w_fs w2)) /\
  (forall w', r = Some (Ok tt) -> shared entry_of (leave_alone entry_of streams) w h w' -> forall st, In st streams -> stream_done entry_of lib d (w_fs w') st).
Proof.
  intros Hl W Hs Hf H. destruct (wt_crypt entry_of lib Hl streams d (w_fs w) Hs Hf policy u r h u' w) as [K1 K2]; [|exact H|].
  - split; [split; [exact W|auto]|intros st []].
  - split.
    + intros b e w1 w2 [a E]. eapply K1, E.
    + intros w' E Sh st I. destruct (K2 _ _ E Sh eq_refl) as [_ K]. destruct (K st I) as [_ [X|(q & t & j & c & b & A & B & C & F & L)]]; [left; exact X|].
      right. exists q, b. split; [exact A|]. split; [exists t, c; split; [exact B|]; split; [eapply file_at_plain; eassumption|exact F]|].
      intros p Ep. destruct (L p Ep) as (s & Es & M). exists s. split; [exact Es|]. destruct M as [[i M]|M]; [left; eapply file_at_plain; eassumption|right; exact M].
Qed.

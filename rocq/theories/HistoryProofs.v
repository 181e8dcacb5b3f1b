(** Proofs about histories of commands. *)
From Coq.Strings Require Import Byte String.
From Coq Require Import List NArith ZArith Bool PeanoNat Lia.
From Verif Require Import Base BaseFacts Shamir Errors Io HeaderIoSpec StreamSpec Text Util CliErrors Getopts Crypto HeaderCrypto CredSpec FileCrypto KeyFiles Ui UiSpec Paths Cli Fs Commands FsSpec
  FsProofs FsProofs2 FsProofs3 FsProofs4 FsProofs5 FsProofs6 FsProofs9 FsProofs10 ToyCrypto FsCases HistorySpec.
Import ListNotations.
Local Open Scope N_scope.

(** ** Consistency at every moment *)

Lemma sound_wf f : sound_fs f -> wf_fs f.
Proof.
  intros [A B]. split.
  - intros s i E. destruct (A s i E) as [n En]. exists n. split; [exact En|].
    pose proof (B i n [s] En ltac:(repeat constructor; intros []) ltac:(intros x [<-|[]]; exact E)) as K. cbn in K. lia.
  - intros s t i n Es Et D En. pose proof (B i n [s; t] En) as K. cbn in K. specialize (K ltac:(repeat constructor; [intros [X|[]]; congruence|intros []])).
    assert (forall x, s = x \/ t = x \/ False -> f_entries f x = Some (EFile i)) as H by (intros x [<-|[<-|[]]]; assumption). specialize (K H). lia.
Qed.
Lemma sound_unlink f s : sound_fs f -> sound_fs (unlink f s).
Proof.
  intros [A B]. unfold unlink.
  assert (Same : forall nodes, nodes = f_nodes f -> sound_fs (mkFs (update (f_entries f) s None) nodes)).
  { intros nodes ->. split; cbn [f_entries f_nodes]; unfold update.
    - intros t i. destruct (t =? s); [discriminate|apply A].
    - intros i n l En Nd Hl. apply (B i n l En Nd). intros t I. specialize (Hl t I). destruct (t =? s); [discriminate Hl|exact Hl]. }
  destruct (f_entries f s) as [[i| |]|] eqn:Es; auto. destruct (f_nodes f i) as [n|] eqn:En; auto.
  split; cbn [f_entries f_nodes]; unfold update.
  - intros t j. destruct (N.eqb_spec t s) as [->|D]; [discriminate|]. intros Et. destruct (N.eqb_spec j i) as [->|Dj]; [|eapply A, Et].
    destruct (N.leb_spec (n_links n) 1) as [L|L]; [|eauto]. exfalso.
    assert (K := B i n [s; t] En ltac:(repeat constructor; [intros [X|[]]; congruence|intros []])). cbn in K.
    assert (H : forall x, s = x \/ t = x \/ False -> f_entries f x = Some (EFile i)) by (intros x [<-|[<-|[]]]; assumption). specialize (K H). lia.
  - intros j m l Ej Nd Hl. assert (Ns : forall t, In t l -> t <> s /\ f_entries f t = Some (EFile j)).
    { intros t I. specialize (Hl t I). destruct (N.eqb_spec t s); [discriminate Hl|]. auto. }
    destruct (N.eqb_spec j i) as [->|Dj]; [|apply (B j m l Ej Nd); intros t I; apply Ns, I].
    assert (K : N.of_nat (length (s :: l)) <= n_links n).
    { apply (B i n (s :: l) En).
      - constructor; [intros I; destruct (Ns s I) as [X _]; apply X; reflexivity|exact Nd].
      - intros t [<-|I]; [exact Es|apply Ns, I]. }
    cbn [length] in K. destruct (N.leb_spec (n_links n) 1) as [L|L]; [discriminate Ej|]. injection Ej as <-. cbn [n_links]. lia.
Qed.
Lemma sound_touch outs dels f g : touch outs dels f g -> sound_fs f -> sound_fs g.
Proof.
  intros T [A B]. destruct T as [s t i _ _ Et Ei Hu|s t i n b _ _ Et Ei _|s _ _ _].
  - split; cbn [add_file f_entries f_nodes]; unfold update.
    + intros u j. destruct (N.eqb_spec u t) as [->|D]; [intros [= <-]; rewrite N.eqb_refl; eauto|]. intros E. destruct (j =? i); [eauto|eapply A, E].
    + intros j n l Ej Nd Hl. destruct (N.eqb_spec j i) as [->|Dj].
      * injection Ej as <-. cbn [n_links]. assert (Sub : forall u, In u l -> u = t).
        { intros u I. specialize (Hl u I). destruct (N.eqb_spec u t); [assumption|]. destruct (Hu u Hl). }
        destruct l as [|x [|y l]]; cbn [length]; try lia. exfalso. inversion_clear Nd as [|? ? Ni _]. apply Ni. left. rewrite (Sub x), (Sub y); cbn; auto.
      * apply (B j n l Ej Nd). intros u I. specialize (Hl u I). destruct (N.eqb_spec u t) as [Eu|]; [|exact Hl]. exfalso. congruence.
  - unfold set_content. rewrite Ei. split; cbn [f_entries f_nodes]; unfold update.
    + intros u j E. destruct (j =? i); [eauto|eapply A, E].
    + intros j m l Ej Nd Hl. destruct (N.eqb_spec j i) as [->|Dj]; [|exact (B j m l Ej Nd Hl)]. injection Ej as <-. cbn [n_links]. exact (B i n l Ei Nd Hl).
  - apply sound_unlink. split; assumption.
Qed.

(** ** One command *)

Lemma plain_unique f s b c : plain_file f s b -> plain_file f s c -> b = c.
Proof. intros (i & A & B) (j & C & D). assert (i = j) by congruence. subst j. congruence. Qed.
Lemma plain_intact f g s b : plain_file f s b -> intact f g s -> plain_file g s b.
Proof. intros (i & A & B) [I J]. exists i. split; [congruence|]. rewrite (J i A). exact B. Qed.

Lemma intact_trans f g h s : intact f g s -> intact g h s -> intact f h s.
Proof. intros [A B] [C D]. split; [congruence|]. intros i E. rewrite (D i ltac:(congruence)). apply B, E. Qed.
Lemma intact_entry f g s : intact f g s -> f_entries f s <> None -> f_entries g s <> None.
Proof. intros [A _] E. congruence. Qed.
Lemma intact_special f g s : intact f g s -> (forall b, ~ plain_file f s b) -> forall b, ~ plain_file g s b.
Proof. intros [A B] N b (i & E & K). apply (N b). exists i. split; [congruence|]. rewrite <- (B i ltac:(congruence)). exact K. Qed.

Section Env.
Variable entry_of : names.
Variable lib : crypto_lib.
Hypothesis Hlib : lib_ok lib.

(** However many of the originals are removed, what became of each is left. *)
Lemma ends_left d l w cbs errs w' : came_to entry_of lib d l w cbs errs w' -> file_to_file l ->
  forall pre g, (forall s, In s pre -> f_entries (w_fs w) s <> None) -> removed (pre ++ entries entry_of cbs) (w_fs w') g ->
  forall s b, In s (entries entry_of cbs) -> plain_file (w_fs w') s b -> exists t c, plain_file g t c /\ descends lib b c.
Proof.
  induction 1 as [w w' Q|st l w w1 cbs errs w' G A Op K H IH|st l w w1 e cbs errs w' G A K H IH]; intros F pre g Hp R s b Is Ps.
  - destruct Is.
  - assert (F' : file_to_file l) by (intros st' p I; apply F; right; exact I).
    destruct (s_input st) as [p| |] eqn:Ei; cbn [input_cleanup app] in R, Is.
    2,3: eapply IH; [exact F'| |exact R|exact Is|exact Ps]; intros t I X; apply (Hp t I); pose proof (g_now _ _ G t) as Y;
      destruct (f_entries (w_fs w) t) eqn:Et; [|reflexivity]; destruct (Y ltac:(discriminate)) as [Y1 _]; congruence.
    destruct (Op p eq_refl) as (s0 & b0 & Es0 & Ps0).
    assert (E0 : f_entries (w_fs w) s0 <> None) by (destruct Ps0 as (i & X & _); congruence).
    assert (Ent : entries entry_of (p :: cbs) = s0 :: entries entry_of cbs) by (unfold entries; cbn; rewrite Es0; reflexivity).
    rewrite Ent in R, Is.
    assert (R' : removed ((pre ++ [s0]) ++ entries entry_of cbs) (w_fs w') g) by (rewrite <- app_assoc; exact R).
    assert (Hp' : forall t, In t (pre ++ [s0]) -> f_entries (w_fs w1) t <> None).
    { intros t I. assert (Nt : f_entries (w_fs w) t <> None) by (apply in_app_or in I as [I|[<-|[]]]; auto).
      destruct (g_now _ _ G t Nt) as [X _]. rewrite X. exact Nt. }
    destruct Is as [<-|Is]; [|eapply IH; [exact F'|exact Hp'|exact R'|exact Is|exact Ps]].
    pose proof (came_to_grows _ _ _ _ _ _ _ _ H) as G'.
    destruct K as [(_ & Eo)|(q & t & b1 & Eo & Et & Nt & Rb & Hb)]; [destruct (F st p (or_introl eq_refl) Ei Eo)|].
    destruct (Rb p Ei) as (s1 & Es1 & Ps1). assert (s1 = s0) by congruence. subst s1.
    assert (b1 = b) as ->.
    { eapply plain_unique; [|exact Ps]. eapply plain_extends; [exact Ps1|]. exact (extends_trans _ _ _ (g_now _ _ G) (g_now _ _ G')). }
    destruct Hb as (t' & c & Et' & Pc & Ic). assert (t' = t) by congruence. subst t'.
    assert (Pc' : plain_file (w_fs w') t c) by (eapply plain_extends; [exact Pc|exact (g_now _ _ G')]).
    destruct (proj1 R t) as [It|[It _]].
    + exists t, c. split; [eapply plain_intact; eassumption|]. eapply d_next; [exact Ic|apply d_same].
    + apply in_app_or in It as [It|[It|It]]; [destruct (Hp t It Nt)|congruence|].
      destruct (IH F' _ _ Hp' R' t c It Pc') as (u & c' & Pu & Du). exists u, c'. split; [exact Pu|]. eapply d_next; eassumption.
  - eapply IH; [intros st' p I; apply F; right; exact I| |exact R|exact Is|exact Ps].
    intros t I. destruct (g_now _ _ G t (Hp t I)) as [X _]. rewrite X. apply Hp, I.
Qed.

Lemma crypt_left streams policy d w r w' : crypt_streams entry_of lib streams policy false d w r w' -> file_to_file streams ->
  wf_fs (w_fs w) -> w_past w = [] -> forall g s b, In g (moments w') -> plain_file (w_fs w) s b ->
  exists t c, plain_file g t c /\ descends lib b c.
Proof.
  intros H F W P g s b Ig Ps. destruct (crypt_run entry_of lib Hlib _ _ _ _ _ _ H W) as (w1 & R). pose proof (r_grows _ _ _ _ _ _ _ _ _ R) as G.
  assert (Ns : f_entries (w_fs w) s <> None) by (destruct Ps as (i & X & _); congruence).
  assert (B : forall g, In g (moments w1) -> plain_file g s b).
  { intros g1 I. apply (plain_intact (w_fs w)); [exact Ps|]. destruct (g_moments _ _ G g1 I) as [I1|I1]; [|apply I1, Ns].
    unfold moments in I1. rewrite P in I1. destruct I1 as [<-|[]]. split; auto. }
  assert (D : forall g, plain_file g s b -> exists t c, plain_file g t c /\ descends lib b c) by (intros g1 X; exists s, b; split; [exact X|apply d_same]).
  destruct (r_end _ _ _ _ _ _ _ _ _ R) as [Q|(cbs & errs & C & _ & _ & M & _)]; [apply D, B; rewrite <- (moments_same _ _ Q); exact Ig|].
  destruct (M g Ig) as [I|Rm]; [apply D, B, I|]. pose proof (B (w_fs w1) (or_introl eq_refl)) as Pw1.
  destruct (proj1 Rm s) as [I|[I _]]; [apply D; eapply plain_intact; eassumption|].
  eapply (ends_left _ _ _ _ _ _ C F [] g); [intros ? []|exact Rm|exact I|exact Pw1].
Qed.

Variable sha512 : bytes -> bytes.

Lemma alone w w0 g : same_files w w0 -> w_past w = [] -> In g (moments w0) -> g = w_fs w.
Proof. intros Q P I. rewrite (moments_same _ _ Q) in I. unfold moments in I. rewrite P in I. destruct I as [<-|[]]. reflexivity. Qed.

(** After a command without force, or at any moment of it, every plain file is there or what became of it; and the file system is consistent. *)
Lemma command_left files args ti to te w status w' g : main entry_of lib sha512 files args ti to te w status w' ->
  ~ asked args OForce -> sound_fs (w_fs w) -> w_past w = [] -> In g (moments w') ->
  sound_fs g /\ forall s b, plain_file (w_fs w) s b -> exists t c, plain_file g t c /\ descends lib b c.
Proof.
  intros H Nf S P Ig. pose proof (sound_wf _ S) as W.
  assert (Same : g = w_fs w -> sound_fs g /\ forall s b, plain_file (w_fs w) s b -> exists t c, plain_file g t c /\ descends lib b c).
  { intros ->. split; [exact S|]. intros s b Ps. exists s, b. split; [exact Ps|apply d_same]. }
  destruct (main_inv _ _ _ _ _ _ _ _ _ _ _ H) as (rc & u1 & Ep & [(_ & Q & _)|(c & r & w1 & -> & H1 & Q & _)]).
  - apply Same. eapply alone; eassumption.
  - rewrite (moments_same _ _ Q) in Ig. set (w0 := set_ui w u1) in *.
    assert (Wn : within (fun _ => True) (fun _ => True) w0 w1 -> sound_fs g).
    { intros X. destruct (X sound_fs (sound_touch _ _) S) as [_ Y]. destruct (Y g Ig) as [I|I]; [|exact I].
      rewrite (alone w0 w0 g (same_refl _) P I). exact S. }
    destruct c as [streams policy force d|streams force| |]; cbn [run_command] in H1.
    + destruct (crypt_options _ _ _ _ _ _ _ _ _ _ _ _ Ep) as (F & Fo & _). destruct force; [destruct (Nf (Fo eq_refl))|]. split.
      * apply Wn. eapply crypt_within; [exact H1|]. split; intros; auto.
      * intros s b Ps. exact (crypt_left _ _ _ _ _ _ H1 F W P g s b Ig Ps).
    + assert (force = false) as ->.
      { destruct force; [|reflexivity]. exfalso. apply Nf. eapply keypair_force, Ep. }
      split; [apply Wn; eapply generate_within; [exact H1|auto]|].
      intros s b Ps. exists s, b. split; [|apply d_same]. apply (plain_intact (w_fs w)); [exact Ps|].
      assert (Ns : f_entries (w_fs w) s <> None) by (destruct Ps as (i & X & _); congruence).
      destruct (generate_spec _ _ _ _ _ _ _ H1) as [Qw|(cs & _ & K & _)].
      * rewrite (alone w0 w1 g Qw P Ig). split; auto.
      * destruct (wr_moments _ _ _ K g Ig) as [I|[E _]]; [|apply E, Ns]. rewrite (alone w0 w0 g (same_refl _) P I). split; auto.
    + destruct H1 as (out & -> & _). apply Same. eapply alone; [apply same_refl|exact P|exact Ig].
    + destruct H1 as (out & -> & _). apply Same. eapply alone; [apply same_refl|exact P|exact Ig].
Qed.
End Env.

Lemma descends_trans lib a b c : descends lib a b -> descends lib b c -> descends lib a c.
Proof. induction 1 as [|d a a1 b Hc H IH]; intros X; [exact X|]. eapply d_next; [exact Hc|apply IH, X]. Qed.

Section History.
Variable lib : crypto_lib.
Hypothesis Hlib : lib_ok lib.
Variable sha512 : bytes -> bytes.
Variable others : fs -> fs -> Prop.
Hypothesis Hsound : forall f g, others f g -> sound_fs f -> sound_fs g.

Lemma history_sound f g : history lib sha512 others f g -> sound_fs f -> sound_fs g.
Proof.
  intros H S. induction H as [|f1 e files args ti to te w status w' g H IH E P Nf Hm Ig|f1 g H IH O]; [exact S| |].
  - subst f1. exact (proj1 (command_left e lib Hlib sha512 _ _ _ _ _ _ _ _ _ Hm Nf IH P Ig)).
  - exact (Hsound _ _ O IH).
Qed.
Lemma history_left f g : (forall f g, others f g -> sound_fs f -> forall s b, plain_file f s b -> exists t, plain_file g t b) ->
  history lib sha512 others f g -> sound_fs f -> forall s b, plain_file f s b -> exists t c, plain_file g t c /\ descends lib b c.
Proof.
  intros Ho H S s b Ps. induction H as [|f1 e files args ti to te w status w' g H IH E P Nf Hm Ig|f1 g H IH O].
  - exists s, b. split; [exact Ps|apply d_same].
  - subst f1. destruct IH as (t & c & Pt & D). destruct (command_left e lib Hlib sha512 _ _ _ _ _ _ _ _ _ Hm Nf (history_sound _ _ H S) P Ig) as [_ K].
    destruct (K t c Pt) as (u & c' & Pu & D'). exists u, c'. split; [exact Pu|]. eapply descends_trans; eassumption.
  - destruct IH as (t & c & Pt & D). destruct (Ho _ _ O (history_sound _ _ H S) t c Pt) as (u & Pu). eauto.
Qed.
End History.

(** ** An example *)
Lemma case_sound : sound_fs case_fs.
Proof.
  split.
  - intros s i E. apply case_files in E as [[-> ->]|[-> ->]]; eexists; reflexivity.
  - intros i n l En Nd Hl. assert (L : n_links n = 1).
    { cbn [case_fs f_nodes] in En. destruct (i =? 1); [injection En as <-; reflexivity|]. destruct (i =? 2); [injection En as <-; reflexivity|discriminate En]. }
    rewrite L. destruct l as [|s [|t l]]; cbn [length]; try lia. exfalso. inversion_clear Nd as [|? ? Ni _]. apply Ni. left.
    destruct (case_files _ _ (Hl s (or_introl eq_refl))) as [[A B]|[A B]], (case_files _ _ (Hl t (or_intror (or_introl eq_refl)))) as [[C D]|[C D]]; congruence.
Qed.

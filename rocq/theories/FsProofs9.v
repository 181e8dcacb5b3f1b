(** Proofs about generating key files. *)
From Coq.Strings Require Import Byte String.
From Coq Require Import List NArith ZArith Bool PeanoNat Lia.
From Verif Require Import Base BaseFacts Shamir Errors Io HeaderIoSpec StreamSpec Text Util CliErrors Crypto HeaderCrypto CredSpec FileCrypto KeyFiles Ui UiSpec Paths Cli Fs Commands FsSpec FsProofs ConvProofs FsProofs2 FsProofs6.
Import ListNotations.
Local Open Scope N_scope.

Section WithEnvironment.
Variable entry_of : names.
Variable lib : crypto_lib.
Variable sha512 : bytes -> bytes.

(** What is new in [g] has a part of an allowed text. *)
Definition new_text (allowed : N -> text -> Prop) (f g : fs) : Prop :=
  forall t, f_entries g t <> None -> f_entries f t <> None \/ exists txt out, allowed t txt /\ prefix_of out (utf8 txt) /\ plain_file g t out.
Record writes (allowed : N -> text -> Prop) (w w' : world) : Prop := mkWrites {
  wr_grows : grows w w';
  wr_now : new_text allowed (w_fs w) (w_fs w');
  wr_moments : forall g, In g (moments w') -> In g (moments w) \/ (extends (w_fs w) g /\ new_text allowed (w_fs w) g);
  wr_stdout : exists l, w_stdout w' = w_stdout w ++ l
}.
Section Allowed.
Variable allowed : N -> text -> Prop.
Lemma writes_trans w1 w2 w3 : writes allowed w1 w2 -> writes allowed w2 w3 -> writes allowed w1 w3.
Proof.
  intros [A1 A2 A3 [la A4]] [B1 B2 B3 [lb B4]].
  assert (K : forall g, extends (w_fs w2) g -> new_text allowed (w_fs w2) g -> new_text allowed (w_fs w1) g).
  { intros g E N t Ht. destruct (N t Ht) as [I|I]; [|auto]. destruct (A2 t I) as [J|(txt & out & J1 & J2 & J3)]; [auto|]. right. exists txt, out.
    split; [exact J1|]. split; [exact J2|]. eapply plain_extends; eassumption. }
  constructor.
  - eapply grows_trans; eassumption.
  - apply K; [exact (g_now _ _ B1)|exact B2].
  - intros g Ig. destruct (B3 g Ig) as [I|[E N]]; [apply A3, I|]. right. split; [eapply extends_trans; [exact (g_now _ _ A1)|exact E]|apply K; assumption].
  - exists (la ++ lb). rewrite B4, A4, app_assoc. reflexivity.
Qed.
Definition generates {A} (m : io A) : Prop := forall w r w', m w r w' -> writes allowed w w'.
Lemma writes_ui w u : writes allowed w (set_ui w u).
Proof.
  constructor; [apply same_grows; repeat split| | |exists []; rewrite app_nil_r; reflexivity].
  - intros t H. left. exact H.
  - intros g H. left. exact H.
Qed.
Lemma writes_refl w : writes allowed w w.
Proof. pose proof (writes_ui w (w_ui w)) as K. destruct w. exact K. Qed.
Lemma gen_ret {A} (a : A) : generates (io_ret a).
Proof. intros w r w' [_ ->]. apply writes_refl. Qed.
Lemma gen_lift {A} (a : outcome cerr A) : generates (io_lift a).
Proof. intros w r w' [_ ->]. apply writes_refl. Qed.
Lemma gen_ui {A} (m : act A) : generates (io_ui m).
Proof. intros w r w' [_ ->]. apply writes_ui. Qed.
Lemma gen_bind {A B} (m : io A) (f : A -> io B) : generates m -> (forall a, generates (f a)) -> generates (io_bind m f).
Proof.
  intros M F w r w' [(a & w1 & H1 & H2)|[(e & H & _)|(H & _)]]; [|eapply M, H..]. eapply writes_trans; [eapply M, H1|eapply F, H2].
Qed.
Lemma gen_try {A} (m : io A) : generates m -> generates (io_try m).
Proof. intros M w r w' [(x & _ & H & _)|(H & _)]; eapply M, H. Qed.

Lemma write_node_stdout i d w : w_stdout (write_out (WriteNode i) d w) = w_stdout w.
Proof.
  unfold write_out. destruct (f_nodes (w_fs w) i) as [n|]; [|reflexivity]. destruct (n_regular n); [|reflexivity]. generalize (seq 1 (length d)). intros l. generalize w.
  induction l as [|k l IH]; intros w0; [reflexivity|]. cbn [fold_left]. rewrite IH. reflexivity.
Qed.

(** Opening and writing one file. *)
Lemma write_new p t w r w' : (let! wr := open_output entry_of (OFile p) false in write_text entry_of wr t) w r w' ->
  (forall s, entry_of p = Some s -> allowed s t) ->
  writes allowed w w' /\
  (r = Ok tt -> exists s, entry_of p = Some s /\ f_entries (w_fs w) s = None /\ plain_file (w_fs w') s (utf8 t)).
Proof.
  intros H Al. cbn [open_output] in H. destruct H as [(wr & w1 & H1 & H)|[(e & [(_ & -> & _)|(s & i & _ & _ & _ & E & _)] & ->)|([(E & _)|(s & i & _ & _ & _ & E & _)] & _)]];
    try discriminate E; [|split; [apply writes_refl|discriminate]].
  destruct H1 as [(E & _)|(s & i & Es & F1 & [F2 F3] & [= ->] & ->)]; [discriminate E|].
  assert (F : fresh (w_fs w) s i) by (repeat split; assumption).
  assert (K : forall out, prefix_of out (utf8 t) -> writes allowed w (write_out (WriteNode i) out (set_fs w (add_file (w_fs w) s i))) /\
    plain_file (w_fs (write_out (WriteNode i) out (set_fs w (add_file (w_fs w) s i)))) s out).
  { intros out P. set (w1 := set_fs w (add_file (w_fs w) s i)).
    destruct (write_created (w_fs w) s i w1 eq_refl out _ eq_refl) as (C & Rf & (l & Pa) & M).
    assert (Nt : forall o g, prefix_of o out -> created (w_fs w) s i o g -> extends (w_fs w) g /\ new_text allowed (w_fs w) g).
    { intros o g Po Cg. split; [eapply created_extends; eassumption|]. intros x Hx. destruct (N.eq_dec x s) as [->|D].
      - right. exists t, o. split; [apply Al, Es|]. split; [|eapply created_plain, Cg].
        destruct Po as [r1 ->], P as [r2 ->]. exists (r1 ++ r2). rewrite app_assoc. reflexivity.
      - left. destruct Cg as [Cg _]. rewrite Cg in Hx. destruct (N.eqb_spec x s); [contradiction|exact Hx]. }
    assert (W1 : forall g, In g (moments w1) -> In g (moments w) \/ created (w_fs w) s i [] g).
    { intros g [<-|Ig]; [|left; exact Ig]. right. unfold w1. cbn. unfold add_file, created, update. cbn. split; intros; reflexivity. }
    split; [|eapply created_plain, C]. constructor.
    - constructor.
      + intros W. eapply created_wf; eassumption.
      + eapply created_extends; eassumption.
      + intros g Ig. destruct (M g Ig) as [I|(o & Po & Cg)]; [|right; eapply created_extends; eassumption].
        destruct (W1 g I) as [I'|Cg]; [auto|right; eapply created_extends; eassumption].
      + intros g Ig. right. rewrite Pa. apply in_or_app. right. exact Ig.
      + intros x Ix. rewrite Rf. exact Ix.
    - apply (Nt out); [exists []; rewrite app_nil_r; reflexivity|exact C].
    - intros g Ig. destruct (M g Ig) as [I|(o & Po & Cg)]; [|right; eapply Nt; eassumption].
      destruct (W1 g I) as [I'|Cg]; [auto|]. right. apply (Nt []); [exists out; reflexivity|exact Cg].
    - exists []. rewrite app_nil_r. apply (write_node_stdout i out w1). }
  destruct H as [(-> & ->)|(_ & -> & out & P & ->)].
  - destruct (K (utf8 t)) as [K1 K2]; [exists []; rewrite app_nil_r; reflexivity|]. split; [exact K1|]. intros _. exists s. auto.
  - destruct (K out P) as [K1 _]. split; [exact K1|discriminate].
Qed.
Lemma write_stdout t w r w' : (let! wr := open_output entry_of OStdout false in write_text entry_of wr t) w r w' ->
  writes allowed w w' /\ (r = Ok tt -> w_stdout w' = w_stdout w ++ utf8 t).
Proof.
  intros H. cbn [open_output] in H. destruct H as [(wr & w1 & [E ->] & H)|[(e & [E _] & _)|([E _] & _)]]; try discriminate E. injection E as ->.
  assert (K : forall out, writes allowed w (write_out WriteStdout out w)).
  { intros out. constructor; [apply same_grows; repeat split| | |exists out; reflexivity].
    - intros x Hx. left. exact Hx.
    - intros g Hg. left. exact Hg. }
  destruct H as [(-> & ->)|(_ & -> & out & P & ->)]; split; try apply K; [reflexivity|discriminate].
Qed.
End Allowed.

(** The files of the key pairs, with their texts. *)
Definition key_text (cs : cryptosys) (streams : list key_streams) (t : N) (txt : text) : Prop :=
  exists ks seed public_text private_text, In ks streams /\
    key_pair_texts sha512 (fst (cs_keypair cs seed)) (snd (cs_keypair cs seed)) = Ok (public_text, private_text) /\
    ((exists p, k_public ks = Some p /\ entry_of p = Some t /\ txt = public_text) \/
     (exists p, k_private ks = OFile p /\ entry_of p = Some t /\ txt = private_text)).
(** Both keys of [ks] are there. *)
Definition has_pair (cs : cryptosys) (w w' : world) (ks : key_streams) : Prop :=
  exists seed public_text private_text,
    key_pair_texts sha512 (fst (cs_keypair cs seed)) (snd (cs_keypair cs seed)) = Ok (public_text, private_text) /\
    (forall p, k_public ks = Some p -> exists t, entry_of p = Some t /\ f_entries (w_fs w) t = None /\ plain_file (w_fs w') t (utf8 public_text)) /\
    (forall p, k_private ks = OFile p -> exists t, entry_of p = Some t /\ f_entries (w_fs w) t = None /\ plain_file (w_fs w') t (utf8 private_text)) /\
    (k_private ks = OStdout -> exists before after, w_stdout w' = before ++ utf8 private_text ++ after).

Lemma extends_none f g t : extends f g -> f_entries g t = None -> f_entries f t = None.
Proof. intros E N. destruct (f_entries f t) eqn:H; [|reflexivity]. destruct (E t) as [A _]; congruence. Qed.

Lemma write_pair_spec (allowed : N -> text -> Prop) ks pub priv w r w' : write_pair entry_of ks false pub priv w r w' ->
  (forall p t, k_public ks = Some p -> entry_of p = Some t -> allowed t pub) ->
  (forall p t, k_private ks = OFile p -> entry_of p = Some t -> allowed t priv) ->
  writes allowed w w' /\
  (r = Ok tt ->
    (forall p, k_public ks = Some p -> exists t, entry_of p = Some t /\ f_entries (w_fs w) t = None /\ plain_file (w_fs w') t (utf8 pub)) /\
    (forall p, k_private ks = OFile p -> exists t, entry_of p = Some t /\ f_entries (w_fs w) t = None /\ plain_file (w_fs w') t (utf8 priv)) /\
    (k_private ks = OStdout -> exists before after, w_stdout w' = before ++ utf8 priv ++ after)).
Proof.
  intros H Pu Pr. unfold write_pair in H.
  match type of H with io_bind ?m _ _ _ _ => set (first := m) in H end.
  assert (F : forall r w1, first w r w1 -> writes allowed w w1 /\
    (r = Ok tt -> forall p, k_public ks = Some p -> exists t, entry_of p = Some t /\ f_entries (w_fs w) t = None /\ plain_file (w_fs w1) t (utf8 pub))).
  { clear H r w'. intros r w1 H. unfold first in H. destruct (k_public ks) as [p|] eqn:Ek.
    - destruct H as [(u & w0 & H0 & H)|[(e & H & ->)|(H & ->)]]; [|split; [eapply gen_ui, H|discriminate]..].
      destruct (write_new allowed _ _ _ _ _ H) as [A B]; [intros s; apply Pu; reflexivity|]. pose proof (gen_ui allowed _ _ _ _ H0) as G0.
      split; [eapply writes_trans; eassumption|]. intros Er q [= <-]. destruct H0 as [_ ->]. apply B, Er.
    - destruct H as [-> ->]. split; [apply writes_refl|discriminate]. }
  assert (L : forall w1 r w', (let! wr := open_output entry_of (k_private ks) false in write_text entry_of wr priv) w1 r w' -> writes allowed w1 w' /\
    (r = Ok tt -> (forall p, k_private ks = OFile p -> exists t, entry_of p = Some t /\ f_entries (w_fs w1) t = None /\ plain_file (w_fs w') t (utf8 priv)) /\
      (k_private ks = OStdout -> exists before after, w_stdout w' = before ++ utf8 priv ++ after))).
  { clear H r w'. intros w1 r w' H. destruct (k_private ks) as [p|] eqn:Ek.
    - destruct (write_new allowed _ _ _ _ _ H) as [A B]; [intros s; apply Pr; reflexivity|]. split; [exact A|]. intros Er. split; [|discriminate]. intros q [= <-]. apply B, Er.
    - destruct (write_stdout allowed _ _ _ _ H) as [A B]. split; [exact A|]. intros Er. split; [discriminate|]. intros _. exists (w_stdout w1), []. rewrite app_nil_r. apply B, Er. }
  destruct H as [([] & w1 & H1 & H)|[(e & H & ->)|(H & ->)]]; [|split; [apply (F _ _ H)|discriminate]..].
  destruct (F _ _ H1) as [F1 F2]. destruct H as [(u & w2 & H2 & H)|[(e & H & ->)|(H & ->)]];
    [|split; [eapply writes_trans; [exact F1|eapply gen_ui, H]|discriminate]..].
  pose proof (gen_ui allowed _ _ _ _ H2) as G2. destruct (L _ _ _ H) as [L1 L2]. pose proof (writes_trans _ _ _ _ F1 G2) as F12.
  split; [eapply writes_trans; eassumption|]. intros Er. specialize (L2 Er). destruct L2 as [L2 L3]. split; [|split; [|exact L3]].
  - intros p Ep. destruct (F2 eq_refl p Ep) as (t & A & B & C). exists t. split; [exact A|]. split; [exact B|]. eapply plain_extends; [exact C|].
    eapply extends_trans; [exact (g_now _ _ (wr_grows _ _ _ G2))|exact (g_now _ _ (wr_grows _ _ _ L1))].
  - intros p Ep. destruct (L2 p Ep) as (t & A & B & C). exists t. split; [exact A|]. split; [|exact C].
    eapply extends_none; [exact (g_now _ _ (wr_grows _ _ _ F12))|exact B].
Qed.

Lemma has_pair_later (allowed : N -> text -> Prop) cs w0 w w1 w' ks : has_pair cs w w1 ks -> writes allowed w0 w -> writes allowed w1 w' -> has_pair cs w0 w' ks.
Proof.
  intros (seed & pub & priv & E & A & B & C) W0 W1. exists seed, pub, priv. split; [exact E|].
  assert (X : forall t b, f_entries (w_fs w) t = None -> plain_file (w_fs w1) t b -> f_entries (w_fs w0) t = None /\ plain_file (w_fs w') t b).
  { intros t b N P. split; [eapply extends_none; [exact (g_now _ _ (wr_grows _ _ _ W0))|exact N]|eapply plain_extends; [exact P|exact (g_now _ _ (wr_grows _ _ _ W1))]]. }
  split; [|split].
  - intros p Ep. destruct (A p Ep) as (t & A1 & A2 & A3). exists t. split; [exact A1|apply X; assumption].
  - intros p Ep. destruct (B p Ep) as (t & A1 & A2 & A3). exists t. split; [exact A1|apply X; assumption].
  - intros Ep. destruct (C Ep) as (b & a & Eq). destruct (wr_stdout _ _ _ W1) as [l El]. exists b, (a ++ l). rewrite El, Eq, <- !app_assoc. reflexivity.
Qed.

Lemma generate_all_spec {k n} cs all streams : (forall ks, In ks streams -> In ks all) -> forall w r w',
  generate_all entry_of sha512 k n cs streams false w r w' ->
  writes (key_text cs all) w w' /\ (r = Ok [] -> forall ks, In ks streams -> has_pair cs w w' ks).
Proof.
  revert k. induction streams as [|ks streams IH]; intros k Sub w r w' H; cbn [generate_all] in H.
  { destruct H as [_ ->]. split; [apply writes_refl|]. intros _ ks []. }
  set (al := key_text cs all) in *.
  destruct H as [([pk sk] & w1 & (-> & seed & Ek) & H)|[(e & (_ & seed & E) & _)|((_ & seed & E) & _)]]; try discriminate E. injection Ek as Ek.
  destruct H as [([pub priv] & w1 & [Et ->] & H)|[(e & [_ ->] & ->)|([_ ->] & ->)]]; [|split; [apply writes_refl|discriminate]..].
  destruct H as [(u1 & w1 & H1 & H)|[(e & H & ->)|(H & ->)]]; [|split; [eapply gen_ui, H|discriminate]..].
  pose proof (gen_ui al _ _ _ _ H1) as G1. destruct H as [(u2 & w2 & H2 & H)|[(e & H & ->)|(H & ->)]];
    [|split; [eapply writes_trans; [exact G1|eapply gen_ui, H]|discriminate]..].
  pose proof (writes_trans _ _ _ _ G1 (gen_ui al _ _ _ _ H2)) as G2.
  assert (Kp : key_pair_texts sha512 (fst (cs_keypair cs seed)) (snd (cs_keypair cs seed)) = Ok (pub, priv)) by (rewrite <- Ek; symmetry; exact Et).
  assert (Wp : forall r w3, write_pair entry_of ks false pub priv w2 r w3 -> writes al w2 w3 /\ (r = Ok tt -> has_pair cs w2 w3 ks)).
  { intros r0 w3 H3. destruct (write_pair_spec al _ _ _ _ _ _ H3) as [A B].
    - intros p t Ep Es. exists ks, seed, pub, priv. split; [apply Sub; left; reflexivity|]. split; [exact Kp|]. left. eauto.
    - intros p t Ep Es. exists ks, seed, pub, priv. split; [apply Sub; left; reflexivity|]. split; [exact Kp|]. right. eauto.
    - split; [exact A|]. intros Er. exists seed, pub, priv. split; [exact Kp|]. apply B, Er. }
  destruct H as [(res & w3 & H3 & H)|[(e & [(x & _ & _ & E)|(_ & E)] & _)|([(x & _ & _ & E)|(H3 & _)] & ->)]]; try discriminate E;
    [|split; [eapply writes_trans; [exact G2|apply (Wp _ _ H3)]|discriminate]].
  destruct H3 as [(x & Nx & H3 & E)|(_ & E)]; [|discriminate E]. injection E as ->.
  destruct (Wp _ _ H3) as [W3 P3]. pose proof (writes_trans _ _ _ _ G2 W3) as G3.
  match type of H with io_bind ?m _ _ _ _ => set (report := m) in H end.
  assert (Rp : forall r w4, report w3 r w4 -> writes al w3 w4 /\ (r = Ok [] -> x = Ok tt)).
  { clear H. intros r0 w4 H. unfold report in H. destruct x as [[]|e|]; [destruct H as [_ ->]; split; [apply writes_refl|auto]| |contradiction Nx; reflexivity].
    destruct H as [(u & w5 & H & [-> ->])|[(e' & H & ->)|(H & ->)]]; (split; [eapply gen_ui, H|discriminate]). }
  destruct H as [(errs & w4 & H4 & H)|[(e & H4 & ->)|(H4 & ->)]]; destruct (Rp _ _ H4) as [W4 P4]; pose proof (writes_trans _ _ _ _ G3 W4) as G4;
    [|split; [exact G4|discriminate]..].
  destruct H as [(u5 & w5 & H5 & H)|[(e & H & ->)|(H & ->)]]; [|split; [eapply writes_trans; [exact G4|eapply gen_ui, H]|discriminate]..].
  pose proof (gen_ui al _ _ _ _ H5) as W5. pose proof (writes_trans _ _ _ _ G4 W5) as G5.
  destruct H as [(errs' & w6 & H6 & [-> ->])|[(e & H & ->)|(H & ->)]];
    [|destruct (IH _ (fun k I => Sub k (or_intror I)) _ _ _ H) as [W6 _]; split; [eapply writes_trans; eassumption|discriminate]..].
  destruct (IH _ (fun k I => Sub k (or_intror I)) _ _ _ H6) as [W6 P6]. split; [eapply writes_trans; eassumption|].
  intros [= E]. apply app_eq_nil in E as [-> ->]. intros k0 [<-|I].
  - eapply has_pair_later; [apply P3, P4; reflexivity|exact G2|]. eapply writes_trans; [exact W4|]. eapply writes_trans; eassumption.
  - eapply has_pair_later; [apply P6; [reflexivity|exact I]|exact G5|apply writes_refl].
Qed.

Lemma generate_spec streams w r w' : generate_key_pair_files entry_of lib sha512 streams false w r w' ->
  same_files w w' \/ exists cs, lib ChaCha20Poly1305Ietf = Some cs /\
  writes (key_text cs streams) w w' /\ (r = Ok tt -> forall ks, In ks streams -> has_pair cs w w' ks).
Proof.
  intros H. unfold generate_key_pair_files in H. destruct H as [(cs & w1 & [E ->] & H)|[(e & [_ ->] & _)|([_ ->] & _)]]; [|left; repeat split..].
  destruct (lib ChaCha20Poly1305Ietf) as [cs0|]; [|discriminate E]. injection E as <-. right. exists cs. split; [reflexivity|].
  destruct H as [(errs & w1 & H & [-> ->])|[(e & H & ->)|(H & ->)]]; destruct (generate_all_spec cs streams streams (fun _ I => I) _ _ _ H) as [A B]; (split; [exact A|]).
  - intros E. apply B. destruct errs; [reflexivity|discriminate E].
  - discriminate.
  - discriminate.
Qed.

Lemma generate_ok streams w w' : generate_key_pair_files entry_of lib sha512 streams false w (Ok tt) w' ->
  exists cs, lib ChaCha20Poly1305Ietf = Some cs /\ forall ks, In ks streams -> has_pair cs w w' ks.
Proof.
  intros H. apply bind_ok_inv in H as (cs & w1 & [E ->] & H). destruct (lib ChaCha20Poly1305Ietf) as [cs0|]; [|discriminate E]. injection E as <-.
  exists cs. split; [reflexivity|]. apply bind_ok_inv in H as (errs & w1 & H & [E ->]). destruct errs; [|discriminate E].
  destruct (generate_all_spec cs streams streams (fun _ I => I) _ _ _ H) as [_ B]. exact (B eq_refl).
Qed.

(** The public text does not depend on the rest of the private key. *)
Lemma public_text_only pk sk sk' pub priv pub' priv' : key_pair_texts sha512 pk sk = Ok (pub, priv) -> key_pair_texts sha512 pk sk' = Ok (pub', priv') -> pub = pub'.
Proof.
  unfold key_pair_texts, assert, bind. destruct (bytes_eqb pk (skipn 32 sk)), (bytes_eqb pk (skipn 32 sk')); try discriminate. intros [= <- _] [= <- _]. reflexivity.
Qed.

(** With force: only named files, and where they lead, are touched. *)
Section Forced.
Variables outs dels : N -> Prop.
Lemma write_text_within wr t w r w' : write_text entry_of wr t w r w' -> writes_to outs (w_fs w) wr -> within outs dels w w'.
Proof. intros [(_ & ->)|(_ & _ & out & _ & ->)] H; apply write_out_within, H. Qed.
Lemma open_write_within o force t w r w' : (let! wr := open_output entry_of o force in write_text entry_of wr t) w r w' ->
  (forall q s, o = OFile q -> entry_of q = Some s -> outs s) -> within outs dels w w'.
Proof.
  intros H Ho. destruct H as [(wr & w1 & H1 & H)|[(e & H1 & _)|(H1 & _)]]; destruct (open_output_within outs dels entry_of _ _ _ _ _ H1 Ho) as [A B]; [|exact A..].
  eapply within_trans; [exact A|]. eapply write_text_within; [exact H|]. apply B. reflexivity.
Qed.
Lemma generate_within streams force w r w' : generate_key_pair_files entry_of lib sha512 streams force w r w' ->
  (forall ks q s, In ks streams -> k_public ks = Some q \/ k_private ks = OFile q -> entry_of q = Some s -> outs s) -> within outs dels w w'.
Proof.
  intros H Ho. unfold generate_key_pair_files in H. revert w r w' H. apply (goes_bind outs dels); [apply goes_quiet, quiet_lift|]. intros cs.
  apply goes_bind; [|intros errs; apply goes_quiet, quiet_lift]. generalize 0%nat (length streams). intros k n. revert k. induction streams as [|ks streams IH]; intros k; [apply goes_quiet, quiet_ret|]. cbn [generate_all].
  apply goes_bind; [apply goes_quiet; intros w r w' [-> _]; repeat split|]. intros [pk sk]. apply goes_bind; [apply goes_quiet, quiet_lift|]. intros [pub priv].
  do 2 (apply goes_bind; [apply goes_quiet, quiet_ui|]; intros _). apply goes_bind.
  - apply goes_try. unfold write_pair. apply goes_bind.
    + destruct (k_public ks) as [p|] eqn:Ek; [|apply goes_quiet, quiet_ret]. apply goes_bind; [apply goes_quiet, quiet_ui|]. intros _ w r w' H.
      eapply open_write_within; [exact H|]. intros q s [= <-]. apply (Ho ks); [left; reflexivity|auto].
    + intros _. apply goes_bind; [apply goes_quiet, quiet_ui|]. intros _ w r w' H. eapply open_write_within; [exact H|]. intros q s E. apply (Ho ks); [left; reflexivity|auto].
  - intros [[]|e|]; (apply goes_bind; [|intros; apply goes_bind; [apply goes_quiet, quiet_ui|intros; apply goes_bind; [apply IH; intros k0 q s I; apply (Ho k0); right; exact I|intros; apply goes_quiet, quiet_ret]]]).
    + apply goes_quiet, quiet_ret.
    + apply goes_bind; [apply goes_quiet, quiet_ui|intros; apply goes_quiet, quiet_ret].
    + apply goes_quiet, quiet_lift.
Qed.
End Forced.
End WithEnvironment.

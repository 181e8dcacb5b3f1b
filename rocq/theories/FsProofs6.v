(** Proofs about which files can be touched at all, with or without force. *)
From Coq.Strings Require Import Byte String.
From Coq Require Import List NArith ZArith Bool PeanoNat Lia.
From Verif Require Import Base BaseFacts Shamir Errors Io HeaderIoSpec StreamSpec Text Util CliErrors Crypto HeaderCrypto CredSpec FileCrypto KeyFiles Ui UiSpec UiProofs UiProofs2 Paths Cli Fs Commands FsSpec FsProofs ConvProofs FsProofs2 FsProofs3 FsProofs4.
Import ListNotations.
Local Open Scope N_scope.

(** An elementary change: the file that the entry [s] of an output leads to is made or gets other content, or a
    removable entry is removed. *)
Inductive touch (outs dels : N -> Prop) (f : fs) : fs -> Prop :=
| t_create s t i : outs s -> follow max_links f s = Some t -> f_entries f t = None -> f_nodes f i = None ->
    (forall u, f_entries f u <> Some (EFile i)) -> touch outs dels f (add_file f t i)
| t_write s t i n b : outs s -> follow max_links f s = Some t -> f_entries f t = Some (EFile i) -> f_nodes f i = Some n ->
    n_regular n = true -> touch outs dels f (set_content f i b)
| t_remove s : dels s -> f_entries f s <> None -> f_entries f s <> Some EDir -> touch outs dels f (unlink f s).

(** Every moment from [w] to [w'] comes from [w] by elementary changes. *)
Definition within (outs dels : N -> Prop) (w w' : world) : Prop :=
  forall P : fs -> Prop, (forall f g, touch outs dels f g -> P f -> P g) -> P (w_fs w) ->
    P (w_fs w') /\ forall g, In g (moments w') -> In g (moments w) \/ P g.

Section Within.
Variables outs dels : N -> Prop.
Lemma within_same w w' : same_files w w' -> within outs dels w w'.
Proof. intros Q P _ H. rewrite (proj1 Q), (moments_same _ _ Q). auto. Qed.
Lemma within_trans w1 w2 w3 : within outs dels w1 w2 -> within outs dels w2 w3 -> within outs dels w1 w3.
Proof.
  intros A B P C H. destruct (A P C H) as [A1 A2]. destruct (B P C A1) as [B1 B2]. split; [exact B1|].
  intros g I. destruct (B2 g I) as [I'|I']; auto.
Qed.
Lemma within_refused w w' : w_fs w' = w_fs w -> w_past w' = w_past w -> within outs dels w w'.
Proof. intros A B P _ H. unfold moments. rewrite A, B. auto. Qed.
Lemma within_set w f : touch outs dels (w_fs w) f -> within outs dels w (set_fs w f).
Proof. intros T P C H. pose proof (C _ _ T H) as K. split; [exact K|]. intros g [<-|I]; auto. Qed.
Lemma within_ui w w' u : within outs dels w w' -> within outs dels w (set_ui w' u).
Proof. intros A P C H. exact (A P C H). Qed.

Definition goes {A} (m : io A) : Prop := forall w r w', m w r w' -> within outs dels w w'.
Lemma goes_quiet {A} (m : io A) : quiet m -> goes m.
Proof. intros Q w r w' H. apply within_same. eapply Q, H. Qed.
Lemma goes_bind {A B} (m : io A) (f : A -> io B) : goes m -> (forall a, goes (f a)) -> goes (io_bind m f).
Proof.
  intros M F w r w' [(a & w1 & H1 & H2)|[(e & H & _)|(H & _)]]; [|eapply M, H..]. eapply within_trans; [eapply M, H1|eapply F, H2].
Qed.
Lemma goes_try {A} (m : io A) : goes m -> goes (io_try m).
Proof. intros M w r w' [(x & _ & H & _)|(H & _)]; eapply M, H. Qed.

(** ** Links *)
Lemma follow_ext n : forall f g s, f_entries g = f_entries f -> follow n g s = follow n f s.
Proof. induction n as [|n IH]; intros f g s E; cbn [follow]; rewrite E; [reflexivity|]. destruct (f_entries f s) as [[|[t|]|]|]; auto. Qed.
Lemma follow_add n : forall f s t i, follow n f s = Some t -> f_entries f t = None -> follow n (add_file f t i) s = Some t.
Proof.
  induction n as [|n IH]; intros f s t i F E; cbn [follow add_file f_entries] in *; unfold update; destruct (N.eqb_spec s t) as [->|D]; try reflexivity.
  - destruct (f_entries f s) as [[|[u|]|]|] eqn:Es; congruence.
  - destruct (f_entries f s) as [[|[u|]|]|] eqn:Es; try congruence. apply IH; assumption.
Qed.
Lemma set_content_entries f i b : f_entries (set_content f i b) = f_entries f.
Proof. unfold set_content. destruct (f_nodes f i); reflexivity. Qed.

(** ** Writing *)

(** The writer is for an output. *)
Definition writes_to (f : fs) (wr : writer) : Prop :=
  forall i, wr = WriteNode i -> exists s t, outs s /\ follow max_links f s = Some t /\ f_entries f t = Some (EFile i).
Lemma write_out_within wr d w : writes_to (w_fs w) wr -> within outs dels w (write_out wr d w).
Proof.
  intros Hw. destruct wr as [i|]; [|apply within_refused; reflexivity]. cbn [write_out].
  destruct (f_nodes (w_fs w) i) as [n|] eqn:En; [|apply within_same, same_refl]. destruct (n_regular n) eqn:Er; [|apply within_same, same_refl].
  generalize (seq 1 (length d)). intros l.
  assert (K : forall l w0, f_entries (w_fs w0) = f_entries (w_fs w) -> (exists m, f_nodes (w_fs w0) i = Some m /\ n_regular m = true) ->
    within outs dels w0 (fold_left (fun w k => set_fs w (set_content (w_fs w) i (n_content n ++ firstn k d))) l w0)).
  { clear l. induction l as [|k l IH]; intros w0 E (m & Em & Rm); [apply within_same, same_refl|]. cbn [fold_left]. eapply within_trans; [|apply IH].
    - apply within_set. destruct (Hw i eq_refl) as (s & t & Os & Fs & Et). apply (t_write _ _ _ s t i m); [exact Os| |congruence|exact Em|exact Rm].
      rewrite (follow_ext _ (w_fs w)); assumption.
    - cbn [set_fs w_fs]. rewrite set_content_entries. exact E.
    - cbn [set_fs w_fs]. destruct (set_content_nodes _ _ _ (n_content n ++ firstn k d) Em) as [_ S2]. eexists. rewrite S2, N.eqb_refl. split; [reflexivity|exact Rm]. }
  apply K; [reflexivity|eauto].
Qed.

Section Env.
Variable entry_of : names.
Variable lib : crypto_lib.

Lemma convert_within d rd wr w r w' : convert entry_of lib d rd wr w r w' -> writes_to (w_fs w) wr -> within outs dels w w'.
Proof.
  intros (er & src & room & fl & r0 & snk & k & _ & _ & _ & _ & [(_ & ->)|(_ & _ & out & _ & ->)]) H; cbv zeta; apply within_ui, write_out_within, H.
Qed.
Lemma open_output_within o force w r w' : open_output entry_of o force w r w' ->
  (forall q s, o = OFile q -> entry_of q = Some s -> outs s) ->
  within outs dels w w' /\ forall wr, r = Ok wr -> writes_to (w_fs w') wr.
Proof.
  intros H Ho. destruct o as [q|]; cbn [open_output] in H.
  2:{ destruct H as [-> ->]. split; [apply within_same, same_refl|]. intros wr [= <-] i E. discriminate E. }
  destruct force.
  - destruct H as [(-> & -> & _)|(s & t & i & Es & F & -> & K)]; [split; [apply within_same, same_refl|discriminate]|].
    specialize (Ho q s eq_refl Es). destruct K as [(E1 & [E2 E3] & ->)|(n & E1 & E2 & ->)].
    + split; [apply within_set; eapply t_create; eassumption|]. intros wr [= <-] j [= <-]. exists s, t. split; [exact Ho|]. cbn [set_fs w_fs].
      split; [apply follow_add; assumption|]. cbn [add_file f_entries]. unfold update. rewrite N.eqb_refl. reflexivity.
    + destruct (n_regular n) eqn:En.
      * split; [apply within_set; eapply t_write; eassumption|]. intros wr [= <-] j [= <-]. exists s, t. split; [exact Ho|]. cbn [set_fs w_fs].
        rewrite set_content_entries. split; [rewrite (follow_ext _ (w_fs w)); [exact F|apply set_content_entries]|exact E1].
      * split; [apply within_same, same_refl|]. intros wr [= <-] j [= <-]. exists s, t. auto.
  - destruct H as [(-> & -> & _)|(s & i & Es & E1 & [E2 E3] & -> & ->)]; [split; [apply within_same, same_refl|discriminate]|].
    specialize (Ho q s eq_refl Es). assert (F : follow max_links (w_fs w) s = Some s) by (unfold max_links; cbn [follow]; rewrite E1; reflexivity).
    split; [apply within_set; eapply t_create; eassumption|]. intros wr [= <-] j [= <-]. exists s, s. split; [exact Ho|]. cbn [set_fs w_fs].
    split; [apply follow_add; assumption|]. cbn [add_file f_entries]. unfold update. rewrite N.eqb_refl. reflexivity.
Qed.
Lemma remove_cb_within p force w r w' : remove_cb entry_of p force w r w' -> (forall s, entry_of p = Some s -> dels s) -> within outs dels w w'.
Proof.
  intros H Hd. destruct (remove_cb_spec _ _ _ _ _ _ H) as (_ & [(Q & _)|(s & Es & N1 & N2 & [(A & B & _)|(A & B & _)])]).
  - apply within_same, Q.
  - apply within_refused; assumption.
  - intros P C HP. assert (K : P (w_fs w')) by (rewrite A; eapply C; [apply t_remove; auto|exact HP]). split; [exact K|].
    unfold moments at 1. rewrite B. intros g [<-|I]; auto.
Qed.

(** ** The commands *)

Definition covers (streams : list io_stream) : Prop :=
  (forall st q s, In st streams -> s_output st = Ok (OFile q) -> entry_of q = Some s -> outs s /\ dels s) /\
  (forall st p s, In st streams -> s_input st = IFile p -> entry_of p = Some s -> dels s).

Lemma attempt_within {k n} st force d w r w' : attempt entry_of lib k n st force d w r w' -> covers [st] ->
  within outs dels w w' /\ forall x p, r = Ok (x, Some p) -> s_output st = Ok (OFile p).
Proof.
  intros H [Ho _].
  assert (Hq : forall o q s, s_output st = Ok o -> o = OFile q -> entry_of q = Some s -> outs s) by (intros o q s E -> Es; eapply Ho; [left; reflexivity|exact E|exact Es]).
  unfold attempt in H. match type of H with io_bind (io_try ?m) _ _ _ _ => set (opening := m) in H end.
  assert (O : forall w r w', opening w r w' -> within outs dels w w' /\
    (forall rd wr cb, r = Ok (rd, wr, cb) -> writes_to (w_fs w') wr /\ forall p, cb = Some p -> s_output st = Ok (OFile p))).
  { clear - Hq. intros w r w' H. unfold opening in H.
    destruct H as [(x & w1 & H1 & H)|[(e & H1 & ->)|(H1 & ->)]]; [|split; [apply within_same; eapply quiet_ui, H1|discriminate]..].
    apply quiet_ui in H1. destruct H as [(o & w2 & H2 & H)|[(e & H2 & ->)|(H2 & ->)]];
      [|split; [apply within_same; eapply same_trans; [exact H1|eapply quiet_lift, H2]|discriminate]..].
    destruct H2 as [Eo ->]. destruct H as [(rd & w3 & H3 & H)|[(e & H3 & ->)|(H3 & ->)]];
      [|split; [apply within_same; eapply same_trans; [exact H1|eapply quiet_open_input, H3]|discriminate]..].
    pose proof (same_trans _ _ _ H1 (quiet_open_input _ _ _ _ _ _ H3)) as Q. clear H1 H3.
    assert (Ho : forall q s, o = OFile q -> entry_of q = Some s -> outs s) by (intros; eapply Hq; eauto).
    destruct H as [(wr & w4 & H4 & H)|[(e & H4 & ->)|(H4 & ->)]]; destruct (open_output_within _ _ _ _ _ H4 Ho) as [W4 K4].
    - destruct H as [-> ->]. split; [eapply within_trans; [apply within_same, Q|exact W4]|]. intros rd' wr' cb [= <- <- <-]. split; [apply K4; reflexivity|].
      intros p E. destruct o; [|discriminate E]. injection E as <-. symmetry. exact Eo.
    - split; [eapply within_trans; [apply within_same, Q|exact W4]|discriminate].
    - split; [eapply within_trans; [apply within_same, Q|exact W4]|discriminate]. }
  clearbody opening.
  destruct H as [(op & w1 & H1 & H)|[(e & H1 & ->)|(H1 & ->)]].
  2:{ destruct H1 as [(x & _ & _ & E)|(_ & E)]; discriminate E. }
  2:{ destruct H1 as [(x & _ & _ & E)|(H1 & _)]; [discriminate E|]. destruct (O _ _ _ H1) as [Q _]. split; [exact Q|discriminate]. }
  destruct H1 as [(x & Nx & H1 & E)|(_ & E)]; [|discriminate E]. injection E as ->. destruct (O _ _ _ H1) as [Q K].
  destruct x as [[[rd wr] cb]|e|]; [|destruct H as [-> ->]; split; [exact Q|discriminate]|contradiction Nx; reflexivity].
  destruct (K _ _ _ eq_refl) as [K1 K2].
  assert (C : forall r2 w2, io_try (convert entry_of lib d rd wr) w1 r2 w2 -> within outs dels w w2).
  { intros r2 w2 [(y & _ & H2 & _)|(H2 & _)]; (eapply within_trans; [exact Q|eapply convert_within; eassumption]). }
  destruct H as [(rr & w2 & H2 & H)|[(e & H2 & ->)|(H2 & ->)]].
  - destruct H as [-> ->]. split; [eapply C, H2|]. intros y p [= <- ->]. apply K2. reflexivity.
  - split; [eapply C, H2|discriminate].
  - split; [eapply C, H2|discriminate].
Qed.

Lemma step_within {k n} st force d w r w' : step entry_of lib k n st force d w r w' -> covers [st] ->
  within outs dels w w' /\ forall cbs errs p, r = Ok (cbs, errs) -> In p cbs -> s_input st = IFile p.
Proof.
  intros H Cv. unfold step in H. destruct H as [([res cb] & w1 & H1 & H)|[(e & H1 & ->)|(H1 & ->)]]; destruct (attempt_within _ _ _ _ _ _ H1 Cv) as [W1 K1].
  2,3: split; [exact W1|discriminate].
  destruct res as [[]|e|].
  - destruct H as [-> ->]. split; [exact W1|]. intros cbs errs p [= <- _] I. unfold input_cleanup in I. destruct (s_input st); [destruct I as [<-|[]]; reflexivity|destruct I..].
  - destruct H as [(u & w2 & H2 & H)|[(e2 & H2 & ->)|(H2 & ->)]]; apply quiet_ui in H2; pose proof (within_trans _ _ _ W1 (within_same _ _ H2)) as W2.
    2,3: split; [exact W2|discriminate].
    assert (R : forall r3 w3, (match cb with Some p => remove_cb entry_of p force | None => io_ret tt end) w2 r3 w3 -> within outs dels w2 w3).
    { intros r3 w3 H3. destruct cb as [p|]; [|destruct H3 as [_ ->]; apply within_same, same_refl]. eapply remove_cb_within; [exact H3|].
      intros s Es. eapply (proj1 Cv); [left; reflexivity|eapply K1; reflexivity|exact Es]. }
    destruct H as [(u' & w3 & H3 & H)|[(e2 & H3 & ->)|(H3 & ->)]]; pose proof (within_trans _ _ _ W2 (R _ _ H3)) as W3.
    + destruct H as [-> ->]. split; [exact W3|]. intros cbs errs p [= <- _] [].
    + split; [exact W3|discriminate].
    + split; [exact W3|discriminate].
  - destruct H as [-> ->]. split; [exact W1|discriminate].
Qed.

Lemma covers_cons st l : covers (st :: l) -> covers [st] /\ covers l.
Proof.
  intros [A B]. split; split; intros x; intros.
  - eapply A; [|eassumption..]. destruct H as [<-|[]]. left. reflexivity.
  - eapply B; [|eassumption..]. destruct H as [<-|[]]. left. reflexivity.
  - eapply A; [|eassumption..]. right. assumption.
  - eapply B; [|eassumption..]. right. assumption.
Qed.
Lemma process_within {k n} force d l : forall w r w', process entry_of lib k n l force d w r w' -> covers l ->
  within outs dels w w' /\ forall cbs errs p, r = Ok (cbs, errs) -> In p cbs -> exists st, In st l /\ s_input st = IFile p.
Proof.
  revert k. induction l as [|st l IH]; intros k w r w' H Cv.
  { destruct H as [-> ->]. split; [apply within_same, same_refl|]. intros cbs errs p [= <- _] []. }
  apply covers_cons in Cv as [C1 C2]. cbn [process] in H.
  destruct H as [([c0 e0] & w1 & H1 & H)|[(e & H1 & ->)|(H1 & ->)]]; destruct (step_within _ _ _ _ _ _ H1 C1) as [W1 K1]; [|split; [exact W1|discriminate]..].
  destruct H as [(u & w2 & H2 & H)|[(e & H2 & ->)|(H2 & ->)]]; apply quiet_ui in H2; pose proof (within_trans _ _ _ W1 (within_same _ _ H2)) as W2; [|split; [exact W2|discriminate]..].
  destruct H as [([c1 e1] & w3 & H3 & H)|[(e & H3 & ->)|(H3 & ->)]]; destruct (IH _ _ _ _ H3 C2) as [W3 K3]; pose proof (within_trans _ _ _ W2 W3) as W13; [|split; [exact W13|discriminate]..].
  destruct H as [-> ->]. split; [exact W13|]. intros cbs errs p [= <- _] I. apply in_app_or in I as [I|I].
  - exists st. split; [left; reflexivity|]. eapply K1; [reflexivity|exact I].
  - destruct (K3 _ _ p eq_refl I) as (st' & I' & E). exists st'. split; [right; exact I'|exact E].
Qed.
Lemma remove_all_within force cbs : forall w r w', remove_all entry_of cbs force w r w' -> (forall p s, In p cbs -> entry_of p = Some s -> dels s) -> within outs dels w w'.
Proof.
  induction cbs as [|p cbs IH]; intros w r w' H Hd; [destruct H as [_ ->]; apply within_same, same_refl|]. cbn [remove_all] in H.
  assert (K : forall r1 w1, remove_cb entry_of p force w r1 w1 -> within outs dels w w1) by (intros r1 w1 H1; eapply remove_cb_within; [exact H1|intros s; apply Hd; left; reflexivity]).
  destruct H as [(u & w1 & H1 & H)|[(e & H1 & _)|(H1 & _)]]; [|eapply K, H1..]. eapply within_trans; [eapply K, H1|eapply IH; [exact H|]].
  intros p' s I. apply Hd. right. exact I.
Qed.
Lemma crypt_within streams policy force d w r w' : crypt_streams entry_of lib streams policy force d w r w' -> covers streams -> within outs dels w w'.
Proof.
  intros H Cv. destruct (crypt_inv _ _ _ _ _ _ _ _ _ H) as (rp & w1 & Hp & K). destruct (process_within _ _ _ _ _ _ Hp Cv) as [W1 K1].
  destruct K as [(e & _ & _ & ->)|[(_ & _ & ->)|(cbs & errs & -> & [(Q & _)|(w2 & Q & Hr & _)])]]; [exact W1|exact W1| |].
  - eapply within_trans; [exact W1|apply within_same, Q].
  - eapply within_trans; [exact W1|]. eapply within_trans; [apply within_same, Q|]. eapply remove_all_within; [exact Hr|].
    intros p s I Es. destruct (K1 _ _ p eq_refl I) as (st & Is & Ei). eapply (proj2 Cv); eassumption.
Qed.
End Env.
End Within.

(** ** Directories stay *)
Lemma touch_dir outs dels s f g : touch outs dels f g -> f_entries f s = Some EDir -> f_entries g s = Some EDir.
Proof.
  intros T E. destruct T as [u t i _ _ Et _ _|u t i n b _ _ _ _ _|u _ N1 N2].
  - cbn [add_file f_entries]. unfold update. destruct (N.eqb_spec s t) as [->|]; [congruence|exact E].
  - rewrite set_content_entries. exact E.
  - cbn [unlink f_entries]. unfold update. destruct (N.eqb_spec s u) as [->|]; [contradiction|exact E].
Qed.

(** ** Unrelated files stay *)

(** [T] has the entries that are named, and where links lead from them. *)
Definition closed (T : N -> Prop) (f : fs) : Prop := forall s t, T s -> f_entries f s = Some (ELink (Some t)) -> T t.
Lemma closed_follow T n : forall f s t, closed T f -> T s -> follow n f s = Some t -> T t.
Proof.
  induction n as [|n IH]; intros f s t C Ts F; cbn [follow] in F.
  - destruct (f_entries f s) as [[|[u|]|]|]; congruence.
  - destruct (f_entries f s) as [[|[u|]|]|] eqn:E; try congruence. eapply IH; [exact C|eapply C; eassumption|exact F].
Qed.
(** The file at [s] is not named, also not by another name of it, and as in [f]. *)
Definition apart (T : N -> Prop) (f : fs) (s : N) (g : fs) : Prop :=
  closed T g /\ intact f g s /\ forall t i, T t -> f_entries f s = Some (EFile i) -> f_entries g t <> Some (EFile i).
Lemma touch_apart (T : N -> Prop) f0 s f g : ~ T s -> touch T T f g -> apart T f0 s f -> apart T f0 s g.
Proof.
  intros Ns Tc (C & [I1 I2] & A). destruct Tc as [u t i Tu F Et Ei Fr|u t i n b Tu F Et Ei Rn|u Tu N1 N2].
  - pose proof (closed_follow _ _ _ _ _ C Tu F) as Tt. assert (s <> t) by (intros ->; contradiction).
    split; [|split; [split|]].
    + intros x y Tx. cbn [add_file f_entries]. unfold update. destruct (N.eqb_spec x t); [discriminate|]. apply C, Tx.
    + cbn [add_file f_entries]. unfold update. destruct (N.eqb_spec s t); [contradiction|exact I1].
    + intros j Ej. cbn [add_file f_nodes]. unfold update. destruct (N.eqb_spec j i) as [->|]; [|apply I2, Ej]. exfalso. apply (Fr s). congruence.
    + intros x j Tx Ej. cbn [add_file f_entries]. unfold update. destruct (N.eqb_spec x t) as [->|]; [|eapply A; eassumption].
      intros [= ->]. apply (Fr s). congruence.
  - pose proof (closed_follow _ _ _ _ _ C Tu F) as Tt. destruct (set_content_nodes _ _ _ b Ei) as [S1 S2]. split; [|split; [split|]].
    + intros x y Tx. rewrite S1. apply C, Tx.
    + rewrite S1. exact I1.
    + intros j Ej. rewrite S2. destruct (N.eqb_spec j i) as [->|]; [|apply I2, Ej]. exfalso. eapply A; eassumption.
    + intros x j Tx Ej. rewrite S1. eapply A; eassumption.
  - assert (s <> u) by (intros ->; contradiction). split; [|split; [split|]].
    + intros x y Tx. cbn [unlink f_entries]. unfold update. destruct (N.eqb_spec x u); [discriminate|]. apply C, Tx.
    + cbn [unlink f_entries]. unfold update. destruct (N.eqb_spec s u); [contradiction|exact I1].
    + intros j Ej. rewrite <- (I2 j Ej). cbn [unlink f_nodes]. destruct (f_entries f u) as [[i| |]|] eqn:Eu; try reflexivity.
      destruct (f_nodes f i) as [n|]; [|reflexivity]. unfold update. destruct (N.eqb_spec j i) as [->|]; [|reflexivity]. exfalso. eapply A; eassumption.
    + intros x j Tx Ej. cbn [unlink f_entries]. unfold update. destruct (N.eqb_spec x u); [discriminate|]. eapply A; eassumption.
Qed.

(** A directory is never an input, even with force. *)
Section Dirs.
Variable entry_of : names.
Variable lib : crypto_lib.
Lemma attempt_dir {k n} st force d p s w r w' : attempt entry_of lib k n st force d w r w' -> s_input st = IFile p \/ s_input st = IFileStream p -> entry_of p = Some s ->
  f_entries (w_fs w) s = Some EDir -> same_files w w' /\ forall x cb, r = Ok (x, cb) -> x <> Ok tt /\ cb = None.
Proof.
  intros H Ei Es Ed. unfold attempt in H. match type of H with io_bind (io_try ?m) _ _ _ _ => set (opening := m) in H end.
  assert (O : forall w r w', f_entries (w_fs w) s = Some EDir -> opening w r w' -> same_files w w' /\ forall x, r <> Ok x).
  { clear - Ei Es. intros w r w' Ed H. unfold opening in H.
    destruct H as [(x & w1 & H1 & H)|[(e & H1 & ->)|(H1 & ->)]]; [|split; [eapply quiet_ui, H1|discriminate]..].
    apply quiet_ui in H1. destruct H as [(o & w2 & H2 & H)|[(e & H2 & ->)|(H2 & ->)]];
      [|split; [eapply same_trans; [exact H1|eapply quiet_lift, H2]|discriminate]..].
    destruct H2 as [Eo ->]. destruct H as [(rd & w3 & H3 & H)|[(e & H3 & ->)|(H3 & ->)]];
      [|split; [eapply same_trans; [exact H1|eapply quiet_open_input, H3]|discriminate]..].
    exfalso. rewrite <- (proj1 H1) in Ed. destruct (open_input_dir entry_of p force w1 rd w3 s Es Ed) as [K1 K2].
    destruct Ei as [Ei|Ei]; rewrite Ei in H3; [exact (K1 H3)|exact (K2 H3)]. }
  clearbody opening. destruct H as [(op & w1 & H1 & H)|[(e & H1 & ->)|(H1 & ->)]].
  2:{ destruct H1 as [(x & _ & _ & E)|(_ & E)]; discriminate E. }
  2:{ destruct H1 as [(x & _ & _ & E)|(H1 & _)]; [discriminate E|]. destruct (O _ _ _ Ed H1) as [Q _]. split; [exact Q|discriminate]. }
  destruct H1 as [(x & Nx & H1 & E)|(_ & E)]; [|discriminate E]. injection E as ->. destruct (O _ _ _ Ed H1) as [Q K].
  destruct x as [x|e|]; [contradiction (K x); reflexivity| |contradiction Nx; reflexivity].
  destruct H as [-> ->]. split; [exact Q|]. intros x cb [= <- <-]. split; [discriminate|reflexivity].
Qed.
Lemma process_dir {k n} force d st p s : s_input st = IFile p \/ s_input st = IFileStream p -> entry_of p = Some s ->
  forall l w cbs errs w', process entry_of lib k n l force d w (Ok (cbs, errs)) w' -> f_entries (w_fs w) s = Some EDir -> In st l -> errs <> [].
Proof.
  intros Ei Es l. revert k. induction l as [|x l IH]; intros k w cbs errs w' H Ed I; [destruct I|]. cbn [process] in H.
  apply bind_ok_inv in H as ([c0 e0] & w1 & H1 & H). apply bind_ok_inv in H as (u & w2 & H2 & H). apply bind_ok_inv in H as ([c1 e1] & w3 & H3 & H).
  destruct H as [E ->]. injection E as -> ->. intros E. apply app_eq_nil in E as [-> ->].
  assert (Ed2 : f_entries (w_fs w2) s = Some EDir).
  { apply quiet_ui in H2. rewrite (proj1 H2). destruct (step_within (fun _ => True) (fun _ => True) entry_of lib _ _ _ _ _ _ H1) as [W1 _]; [split; auto|].
    apply (W1 (fun f => f_entries f s = Some EDir)); [intros f g; apply touch_dir|exact Ed]. }
  destruct I as [<-|I]; [|eapply IH; [exact H3|exact Ed2|exact I|reflexivity]].
  unfold step in H1. apply bind_ok_inv in H1 as ([res cb] & w4 & H1 & H). destruct (attempt_dir _ _ _ _ _ _ _ _ H1 Ei Es Ed) as [_ K].
  destruct (K _ _ eq_refl) as [K1 _]. destruct res as [[]|e|]; [contradiction K1; reflexivity| |destruct H; discriminate].
  apply bind_ok_inv in H as (u' & w5 & _ & H). apply bind_ok_inv in H as (u2 & w6 & _ & [E _]). discriminate E.
Qed.
End Dirs.

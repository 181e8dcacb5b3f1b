(** Proofs about which files are made without force, and about inputs that are not plain files. *)
From Coq.Strings Require Import Byte String.
From Coq Require Import List NArith ZArith Bool PeanoNat Lia.
From Verif Require Import Base BaseFacts Shamir Errors Io HeaderIoSpec StreamSpec Text Util CliErrors Crypto HeaderCrypto CredSpec FileCrypto Ui UiSpec UiProofs UiProofs2 Paths Cli Fs Commands FsSpec FsProofs ConvProofs FsProofs2 FsProofs3 FsProofs4 FsProofs5.
Import ListNotations.
Local Open Scope N_scope.

Section Crypt.
Variable entry_of : names.
Variable lib : crypto_lib.
Hypothesis Hlib : lib_ok lib.

(** New in [g] is at most the output of a stream with a plain input. *)
Definition made (l : list io_stream) (f g : fs) : Prop :=
  forall t, f_entries g t <> None -> f_entries f t <> None \/
    exists st q, In st l /\ s_output st = Ok (OFile q) /\ entry_of q = Some t /\
      forall p s, s_input st = IFile p -> entry_of p = Some s -> f_entries f s <> None -> exists b, plain_file f s b.
Lemma made_refl l f : made l f f.
Proof. intros t Ht. auto. Qed.
Lemma plain_back f g s b : extends f g -> f_entries f s <> None -> plain_file g s b -> plain_file f s b.
Proof. intros E N (i & A & B). destruct (E s N) as [C D]. exists i. split; [congruence|]. rewrite <- D; [exact B|congruence]. Qed.
Lemma made_trans st l f g h : extends f g -> made [st] f g -> made l g h -> made (st :: l) f h.
Proof.
  intros E A B t Ht. destruct (B t Ht) as [I|(st' & q & I & Eo & Et & Pl)].
  - destruct (A t I) as [I'|(st' & q & [<-|[]] & K)]; [auto|]. right. exists st, q. split; [left; reflexivity|exact K].
  - right. exists st', q. split; [right; exact I|]. split; [exact Eo|]. split; [exact Et|]. intros p s Ep Es N.
    destruct (Pl p s Ep Es) as (b & P); [destruct (E s N) as [X _]; congruence|]. exists b. eapply plain_back; eassumption.
Qed.
Lemma made_cons st l f g : made [st] f g -> made (st :: l) f g.
Proof. intros A t Ht. destruct (A t Ht) as [I|(st' & q & [<-|[]] & K)]; [auto|]. right. exists st, q. split; [left; reflexivity|exact K]. Qed.

Lemma step_made {k n} st d w r w' : step entry_of lib k n st false d w r w' ->
  made [st] (w_fs w) (w_fs w') /\ (forall g, In g (moments w') -> In g (moments w) \/ made [st] (w_fs w) g) /\
  (forall cbs errs, r = Ok (cbs, errs) -> errs = [] -> opened_plain entry_of (w_fs w) (s_input st)).
Proof.
  intros H. destruct (step_spec entry_of lib Hlib _ _ _ _ _ H) as (G & N1 & K).
  assert (Kp : forall cbs errs, r = Ok (cbs, errs) -> errs = [] -> opened_plain entry_of (w_fs w) (s_input st)).
  { intros cbs errs -> ->. destruct K as [K|[(_ & Op & _)|(e & K & _)]]; [discriminate K|exact Op|discriminate K]. }
  split; [|split; [|exact Kp]].
  2: unfold step in H.
  (* The final state comes from the moments. *)
  all: cycle 1.
  - assert (M : forall r1 w1, attempt entry_of lib k n st false d w r1 w1 -> (forall g, In g (moments w1) -> In g (moments w) \/ made [st] (w_fs w) g)).
    { intros r1 w1 H1 g Ig. destruct (attempt_spec entry_of lib Hlib _ _ _ _ _ H1) as [(Q & _)|(q & t & i & out & Eo & Et & F & Cr & Er & P1 & P2 & Op & _)].
      - left. rewrite <- (moments_same _ _ Q). exact Ig.
      - destruct (P2 g Ig) as [I|(o & I)]; [auto|]. right. intros u Hu. rewrite (proj1 I) in Hu. destruct (N.eqb_spec u t) as [Eu|]; [subst u|auto].
        right. exists st, q. split; [left; reflexivity|]. split; [exact Eo|]. split; [exact Et|]. intros p s Ep Es _. destruct (Op p Ep) as (s' & b & Es' & Pl). exists b. congruence. }
    destruct H as [([res cb] & w1 & H1 & H)|[(e & H1 & ->)|(H1 & ->)]]; [|exact (M _ _ H1)..]. specialize (M _ _ H1).
    destruct res as [[]|e|]; [destruct H as [_ ->]; exact M| |destruct H as [_ ->]; exact M].
    destruct (attempt_spec entry_of lib Hlib _ _ _ _ _ H1) as [(Q & K1)|(q & t & i & out & Eo & Et & F & Cr & Er & P1 & P2 & Op & K1)].
    + destruct K1 as [K1|(x & K1 & _)]; [discriminate K1|]. injection K1 as <- ->.
      destruct H as [(u & w2 & H2 & H)|[(e2 & H2 & ->)|(H2 & ->)]]; apply quiet_ui in H2; [|rewrite (moments_same _ _ H2); exact M..].
      destruct H as [(u' & w3 & [_ ->] & H)|[(e2 & [_ ->] & _)|([_ ->] & _)]]; [destruct H as [_ ->]|..]; rewrite (moments_same _ _ H2); exact M.
    + destruct K1 as [K1|(x & K1 & _)]; [discriminate K1|]. injection K1 as <- ->.
      destruct H as [(u & w2 & H2 & H)|[(e2 & H2 & ->)|(H2 & ->)]]; apply quiet_ui in H2; [|rewrite (moments_same _ _ H2); exact M..].
      assert (R : forall r3 w3, remove_cb entry_of q false w2 r3 w3 -> forall g, In g (moments w3) -> In g (moments w) \/ made [st] (w_fs w) g).
      { intros r3 w3 H3 g Ig. destruct (remove_cb_spec _ _ _ _ _ _ H3) as (_ & [(Q3 & _)|(t' & Et' & _ & _ & [(A & B & _)|(A & B & _)])]).
        - apply M. rewrite <- (moments_same _ _ H2), <- (moments_same _ _ Q3). exact Ig.
        - apply M. rewrite <- (moments_same _ _ H2). unfold moments in *. rewrite <- A, <- B. exact Ig.
        - unfold moments in Ig at 1. rewrite B, A, (moments_same _ _ H2) in Ig. destruct Ig as [<-|Ig]; [|apply M, Ig]. right.
          assert (t' = t) by congruence. subst t'. rewrite (proj1 H2). pose proof (created_unlink _ _ _ _ _ F Cr) as [Fe _].
          intros x Hx. left. rewrite <- Fe. exact Hx. }
      destruct H as [(u' & w3 & H3 & H)|[(e2 & H3 & ->)|(H3 & ->)]]; [destruct H as [_ ->]|..]; exact (R _ _ H3).
  - intros t Ht. destruct (N1 t Ht) as [I|(q & Eo & Et)]; [auto|].
    (* The output exists: look at the attempt. *)
    unfold step in H.
    assert (M : forall r1 w1, attempt entry_of lib k n st false d w r1 w1 -> w_fs w1 = w_fs w \/ opened_plain entry_of (w_fs w) (s_input st)).
    { intros r1 w1 H1. destruct (attempt_spec entry_of lib Hlib _ _ _ _ _ H1) as [(Q & _)|(q' & t' & i & out & _ & _ & _ & _ & _ & _ & _ & Op & _)]; [left; exact (proj1 Q)|auto]. }
    assert (D : f_entries (w_fs w) t <> None \/ opened_plain entry_of (w_fs w) (s_input st)).
    { destruct H as [([res cb] & w1 & H1 & H)|[(e & H1 & ->)|(H1 & ->)]]; destruct (M _ _ H1) as [M1|M1]; auto; try (left; rewrite <- M1; exact Ht).
      left. rewrite <- M1. destruct res as [[]|e|]; [destruct H as [_ ->]; exact Ht| |destruct H as [_ ->]; exact Ht].
      assert (X : forall w2 r3 w3, same_files w1 w2 -> (match cb with Some p => remove_cb entry_of p false | None => io_ret tt end) w2 r3 w3 -> f_entries (w_fs w3) t <> None -> f_entries (w_fs w1) t <> None).
      { intros w2 r3 w3 Q H3 N3. rewrite <- (proj1 Q). destruct cb as [p|]; [|destruct H3 as [_ ->]; exact N3].
        destruct (remove_cb_spec _ _ _ _ _ _ H3) as (_ & [(Q3 & _)|(t' & Et' & Nt & _ & [(A & _)|(A & _)])]); [rewrite <- (proj1 Q3); exact N3|rewrite <- A; exact N3|].
        rewrite A in N3. cbn [unlink f_entries] in N3. unfold update in N3. destruct (N.eqb_spec t t') as [->|]; [exact Nt|exact N3]. }
      destruct H as [(u & w2 & H2 & H)|[(e2 & H2 & _)|(H2 & _)]]; apply quiet_ui in H2; [|rewrite (proj1 H2) in Ht; exact Ht..].
      destruct H as [(u' & w3 & H3 & H)|[(e2 & H3 & _)|(H3 & _)]]; [destruct H as [_ ->]|..]; eapply X; eassumption. }
    destruct D as [D|D]; [auto|]. right. exists st, q. split; [left; reflexivity|]. split; [exact Eo|]. split; [exact Et|]. intros p s Ep Es _.
    destruct (D p Ep) as (s' & b & Es' & Pl). exists b. congruence.
Qed.

Lemma process_made {k n} d l : forall w r w', process entry_of lib k n l false d w r w' ->
  made l (w_fs w) (w_fs w') /\ (forall g, In g (moments w') -> In g (moments w) \/ made l (w_fs w) g).
Proof.
  revert k. induction l as [|st l IH]; intros k w r w' H; [destruct H as [_ ->]; split; [apply made_refl|auto]|]. cbn [process] in H.
  destruct H as [([c0 e0] & w1 & H1 & H)|[(e & H1 & ->)|(H1 & ->)]]; destruct (step_made _ _ _ _ _ H1) as (A1 & M1 & _);
    destruct (step_spec entry_of lib Hlib _ _ _ _ _ H1) as (G & _ & _);
    [|split; [apply made_cons, A1|intros g Ig; destruct (M1 g Ig); [auto|right; apply made_cons; assumption]]..].
  destruct H as [(u & w2 & H2 & H)|[(e & H2 & ->)|(H2 & ->)]]; apply quiet_ui in H2;
    [|rewrite (proj1 H2), (moments_same _ _ H2); split; [apply made_cons, A1|intros g Ig; destruct (M1 g Ig); [auto|right; apply made_cons; assumption]]..].
  assert (X : forall r3 w3, process entry_of lib (S k) n l false d w2 r3 w3 -> made (st :: l) (w_fs w) (w_fs w3) /\ (forall g, In g (moments w3) -> In g (moments w) \/ made (st :: l) (w_fs w) g)).
  { intros r3 w3 H3. destruct (IH _ _ _ _ H3) as [A3 M3]. rewrite (proj1 H2) in A3, M3. rewrite (moments_same _ _ H2) in M3. split.
    - eapply made_trans; [exact (g_now _ _ G)|exact A1|exact A3].
    - intros g Ig. destruct (M3 g Ig) as [I|I]; [destruct (M1 g I); [auto|right; apply made_cons; assumption]|].
      right. eapply made_trans; [exact (g_now _ _ G)|exact A1|exact I]. }
  destruct H as [([c1 e1] & w3 & H3 & H)|[(e & H3 & ->)|(H3 & ->)]]; [destruct H as [_ ->]|..]; exact (X _ _ H3).
Qed.

Lemma crypt_made streams policy d w r w' : crypt_streams entry_of lib streams policy false d w r w' -> wf_fs (w_fs w) ->
  forall g, In g (moments w') -> In g (moments w) \/ made streams (w_fs w) g.
Proof.
  intros H W g Ig. destruct (crypt_inv _ _ _ _ _ _ _ _ _ H) as (rp & w1 & Hp & K). destruct (process_made _ _ _ _ _ Hp) as [A1 M1].
  destruct (process_spec entry_of lib Hlib _ _ _ _ _ Hp) as (G & _ & _ & C).
  destruct K as [(e & _ & _ & ->)|[(_ & _ & ->)|(cbs & errs & -> & [(Q & _)|(w2 & Q & Hr & _)])]]; [auto|auto|apply M1; rewrite <- (moments_same _ _ Q); exact Ig|].
  specialize (C _ _ eq_refl).
  assert (Hl : forall s, In s (entries entry_of cbs) -> exists b, plain_file (w_fs w1) s b).
  { intros s I. apply in_entries in I as (p & I & Ep). destruct (came_to_cbs _ _ _ _ _ _ _ _ C p I) as (st & s' & b & _ & _ & Es & P & _). exists b. congruence. }
  destruct (remove_all_spec entry_of false _ (w_fs w1) Hl cbs w2 (Ok tt) w') as (_ & R & _ & M & _).
  { intros p s I E. apply in_entries. eauto. }
  { exact Hr. }
  { rewrite (proj1 Q). apply (g_wf _ _ G), W. }
  { rewrite (proj1 Q). apply removed_refl. }
  rewrite (moments_same _ _ Q) in M. destruct (M g Ig) as [I|[_ Rn]]; [auto|]. right. intros t Ht. apply A1, Rn, Ht.
Qed.

(** A stream whose input is not plain has no output and the run fails. *)
Lemma came_to_plain d l w cbs errs w' : came_to entry_of lib d l w cbs errs w' -> errs = [] -> forall st, In st l -> opened_plain entry_of (w_fs w') (s_input st).
Proof.
  induction 1 as [w w' Q|st l w w1 cbs errs w' G A Op K H IH|st l w w1 e cbs errs w' G A K H IH]; intros E st' I; [destruct I| |discriminate E].
  destruct I as [<-|I]; [|apply IH; assumption]. intros p Ep. destruct (Op p Ep) as (s & b & Es & P). exists s, b. split; [exact Es|].
  eapply plain_extends; [exact P|]. eapply extends_trans; [exact (g_now _ _ G)|exact (g_now _ _ (came_to_grows _ _ _ _ _ _ _ _ H))].
Qed.

Lemma not_plain streams policy d w r w' st p s : crypt_streams entry_of lib streams policy false d w r w' -> wf_fs (w_fs w) -> w_past w = [] ->
  In st streams -> s_input st = IFile p -> entry_of p = Some s -> f_entries (w_fs w) s <> None -> (forall b, ~ plain_file (w_fs w) s b) ->
  r <> Ok tt /\ (forall g, In g (moments w') -> intact (w_fs w) g s) /\
  (distinct_outputs entry_of streams -> forall q t, s_output st = Ok (OFile q) -> entry_of q = Some t -> f_entries (w_fs w) t = None ->
     forall g, In g (moments w') -> f_entries g t = None).
Proof.
  intros H W P I Ei Es Ne Np. split; [|split].
  - intros ->. destruct (crypt_run entry_of lib Hlib _ _ _ _ _ _ H W) as (w1 & R). destruct (r_errors _ _ _ _ _ _ _ _ _ R (or_introl eq_refl)) as (cbs & errs & C & [E _]).
    destruct (came_to_plain _ _ _ _ _ _ C (E eq_refl) st I p Ei) as (s' & b & Es' & Pb). assert (s' = s) by congruence. subst s'.
    apply (Np b). eapply plain_back; [exact (g_now _ _ (r_grows _ _ _ _ _ _ _ _ _ R))|exact Ne|exact Pb].
  - intros g Ig. destruct (existing_files entry_of lib Hlib _ _ _ _ _ _ H W P g s Ig Ne) as [X|(_ & _ & st' & p' & b & _ & _ & _ & X & _)]; [exact X|contradiction (Np b)].
  - intros D q t Eo Et Nt g Ig. destruct (crypt_made _ _ _ _ _ _ H W g Ig) as [X|X].
    + unfold moments in X. rewrite P in X. destruct X as [<-|[]]. exact Nt.
    + destruct (f_entries g t) eqn:Eg; [|reflexivity]. exfalso. destruct (X t) as [Y|(st' & q' & I' & Eo' & Et' & Pl)]; [congruence|congruence|].
      assert (Z : st' = st).
      { apply in_split in I as (l1 & l2 & ->). apply in_app_or in I' as [I'|[I'|I']]; [|symmetry; exact I'|].
        - apply in_split in I' as (l3 & l4 & ->). exfalso. eapply (D l3 st' l4 st l2); [rewrite <- app_assoc; reflexivity|exact Eo'|exact Eo|exact Et'|exact Et].
        - apply in_split in I' as (l3 & l4 & ->). exfalso. eapply (D l1 st l3 st' l4); [reflexivity|exact Eo|exact Eo'|exact Et|exact Et']. }
      subst st'. destruct (Pl p s Ei Es Ne) as (b & Pb). exact (Np b Pb).
Qed.
End Crypt.

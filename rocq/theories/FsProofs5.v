(** Proofs about whole runs without force: what may happen to files. *)
From Coq.Strings Require Import Byte String.
From Coq Require Import List NArith ZArith Bool PeanoNat Lia.
From Verif Require Import Base BaseFacts Shamir Errors Io HeaderIoSpec StreamSpec Text Util CliErrors Crypto HeaderCrypto CredSpec FileCrypto Ui UiSpec UiProofs UiProofs2 Paths Cli Fs Commands FsSpec FsProofs ConvProofs FsProofs2 FsProofs3 FsProofs4.
Import ListNotations.
Local Open Scope N_scope.

Section Crypt.
Variable entry_of : names.
Variable lib : crypto_lib.
Hypothesis Hlib : lib_ok lib.

Lemma remove_all_refused force cbs : forall w r w', remove_all entry_of cbs force w r w' -> forall t, In t (w_refused w) -> In t (w_refused w').
Proof.
  induction cbs as [|p cbs IH]; intros w r w' H t I; [destruct H as [_ ->]; exact I|]. cbn [remove_all] in H.
  assert (K : forall r1 w1, remove_cb entry_of p force w r1 w1 -> In t (w_refused w1)).
  { intros r1 w1 H1. destruct (remove_cb_spec _ _ _ _ _ _ H1) as (_ & [((_ & _ & Q) & _)|(s & _ & _ & _ & [(_ & _ & D)|(_ & _ & D)])]); rewrite ?Q, ?D; [exact I|right; exact I|exact I]. }
  destruct H as [(u & w1 & H1 & H)|[(e & H1 & _)|(H1 & _)]]; [eapply IH; [exact H|eapply K, H1]|eapply K, H1..].
Qed.

(** A run: the loop up to [w1], then removal of some of the converted files. *)
Record run (streams : list io_stream) (policy : cleanup_policy) (d : direction_opts) (w : world) (r : outcome cerr unit) (w1 w' : world) : Prop := mkRun {
  r_grows : grows w w1;
  r_new : forall t, f_entries (w_fs w1) t <> None -> f_entries (w_fs w) t <> None \/
     exists st q, In st streams /\ s_output st = Ok (OFile q) /\ entry_of q = Some t;
  r_kept : r <> Panic -> forall t, f_entries (w_fs w1) t <> None -> f_entries (w_fs w) t <> None \/ In t (w_refused w1) \/
     exists st, In st streams /\ exists q b, s_output st = Ok (OFile q) /\ entry_of q = Some t /\ reads entry_of (w_fs w1) (s_input st) b /\ has_conversion entry_of lib d b (w_fs w1) q;
  r_errors : r = Ok tt \/ r = Err CComposite -> exists cbs errs, came_to entry_of lib d streams w cbs errs w1 /\ (r = Ok tt <-> errs = []);
  r_refused : forall t, In t (w_refused w1) -> In t (w_refused w');
  r_end : same_files w1 w' \/
    exists cbs errs, came_to entry_of lib d streams w cbs errs w1 /\ deletion_requested policy w w' /\
      removed (entries entry_of cbs) (w_fs w1) (w_fs w') /\
      (forall g, In g (moments w') -> In g (moments w1) \/ removed (entries entry_of cbs) (w_fs w1) g) /\
      (forall g, In g (moments w1) -> In g (moments w'))
}.

Lemma crypt_run streams policy d w r w' : crypt_streams entry_of lib streams policy false d w r w' -> wf_fs (w_fs w) ->
  exists w1, run streams policy d w r w1 w'.
Proof.
  intros H W. destruct (crypt_inv _ _ _ _ _ _ _ _ _ H) as (rp & w1 & Hp & K). exists w1. clear H.
  destruct (process_spec entry_of lib Hlib _ _ _ _ _ Hp) as (G & N1 & N2 & C).
  destruct K as [(e & -> & -> & ->)|[(-> & -> & ->)|(cbs & errs & -> & K)]].
  - apply process_err in Hp as ->. constructor; auto; [intros _; apply N2; discriminate|intros [E|E]; discriminate E|left; apply same_refl].
  - constructor; auto; [intros [E|E]; discriminate E|left; apply same_refl].
  - specialize (C _ _ eq_refl). specialize (N2 ltac:(discriminate)).
    assert (Rf : same_files w1 w' -> forall t, In t (w_refused w1) -> In t (w_refused w')) by (intros (_ & _ & ->); auto).
    destruct K as [(Q & K)|(w2 & Q & Hr & D & ->)].
    + constructor; auto. intros E. exists cbs, errs. split; [exact C|]. destruct K as [->|(_ & e & T & ->)].
      * destruct errs; split; congruence.
      * exfalso. destruct E as [E|E]; [discriminate E|]. injection E as ->. unfold tty_error in T. cbn in T. intuition discriminate.
    + assert (Hl : forall s, In s (entries entry_of cbs) -> exists b, plain_file (w_fs w1) s b).
      { intros s I. apply in_entries in I as (p & I & Ep). destruct (came_to_cbs _ _ _ _ _ _ _ _ C p I) as (st & s' & b & _ & _ & Es & P & _). exists b. congruence. }
      destruct (remove_all_spec entry_of false _ (w_fs w1) Hl cbs w2 (Ok tt) w') as (_ & R & _ & M & M').
      { intros p s I E. apply in_entries. eauto. }
      { exact Hr. }
      { rewrite (proj1 Q). apply (g_wf _ _ G), W. }
      { rewrite (proj1 Q). apply removed_refl. }
      rewrite (moments_same _ _ Q) in M, M'.
      constructor; auto.
      * intros _. exists cbs, errs. split; [exact C|]. destruct errs; split; congruence.
      * intros t I. eapply remove_all_refused; [exact Hr|]. destruct Q as (_ & _ & ->). exact I.
      * right. exists cbs, errs. auto.
Qed.

Lemma run_moments streams policy d w r w1 w' : run streams policy d w r w1 w' -> forall g, In g (moments w1) -> In g (moments w').
Proof. intros R g I. destruct (r_end _ _ _ _ _ _ _ R) as [Q|(_ & _ & _ & _ & _ & _ & M)]; [rewrite (moments_same _ _ Q); exact I|auto]. Qed.

(** ** Existing files *)

Lemma existing_files streams policy d w r w' : crypt_streams entry_of lib streams policy false d w r w' ->
  wf_fs (w_fs w) -> w_past w = [] ->
  forall g s, In g (moments w') -> f_entries (w_fs w) s <> None ->
  intact (w_fs w) g s \/
  (deletion_requested policy w w' /\ f_entries g s = None /\
   exists st p b, In st streams /\ s_input st = IFile p /\ entry_of p = Some s /\ plain_file (w_fs w) s b /\
     (s_output st = Ok OStdout \/
      exists q, s_output st = Ok (OFile q) /\ (exists f, In f (moments w') /\ has_conversion entry_of lib d b f q) /\
        (separate entry_of streams -> has_conversion entry_of lib d b g q))).
Proof.
  intros H W P g s Ig Es. destruct (crypt_run _ _ _ _ _ _ H W) as (w1 & R). pose proof (r_grows _ _ _ _ _ _ _ R) as G.
  assert (B : forall g, In g (moments w1) -> intact (w_fs w) g s).
  { intros g1 I. destruct (g_moments _ _ G g1 I) as [I1|I1]; [|apply I1, Es]. unfold moments in I1. rewrite P in I1. destruct I1 as [<-|[]]. apply extends_refl, Es. }
  assert (B1 := B (w_fs w1) (or_introl eq_refl)).
  destruct (r_end _ _ _ _ _ _ _ R) as [Q|(cbs & errs & C & D & _ & M & M')]; [left; apply B; rewrite <- (moments_same _ _ Q); exact Ig|].
  destruct (M g Ig) as [I|[Rm Rn]]; [auto|]. destruct (Rm s) as [[I1 I2]|[I1 I2]].
  - left. destruct B1 as [B1 B2]. split; [congruence|]. intros i E. rewrite <- (B2 i E). apply I2. congruence.
  - right. split; [exact D|]. split; [exact I2|]. apply in_entries in I1 as (p & I1 & Ep).
    destruct (came_to_cbs _ _ _ _ _ _ _ _ C p I1) as (st & s' & b & Is & Ei & Ep' & Pl & K). assert (s' = s) by congruence. subst s'.
    exists st, p, b. split; [exact Is|]. split; [exact Ei|]. split; [exact Ep|]. split.
    { destruct Pl as (i & P1 & P2). destruct B1 as [B1 B2]. exists i. split; [congruence|]. rewrite <- B2; [exact P2|congruence]. }
    destruct K as [K|(q & Eo & Hc)]; [auto|]. right. exists q. split; [exact Eo|]. split; [exists (w_fs w1); split; [apply M'; left; reflexivity|exact Hc]|].
    intros Sep. destruct Hc as (t & c & Et & (i & P1 & P2) & Ic). exists t, c. split; [exact Et|]. split; [|exact Ic].
    destruct (Rm t) as [[J1 J2]|[J1 _]]; [exists i; split; [congruence|rewrite J2; assumption]|].
    exfalso. apply in_entries in J1 as (p' & J1 & Ep2). destruct (came_to_cbs _ _ _ _ _ _ _ _ C p' J1) as (st' & s' & b' & Is' & Ei' & _).
    eapply Sep; [exact Is'|exact Is|exact Ei'|exact Eo|exact Ep2|exact Et].
Qed.

(** ** New files *)

Lemma new_files streams policy d w r w' : crypt_streams entry_of lib streams policy false d w r w' ->
  wf_fs (w_fs w) ->
  (forall t, f_entries (w_fs w') t <> None -> f_entries (w_fs w) t <> None \/
     exists st q, In st streams /\ s_output st = Ok (OFile q) /\ entry_of q = Some t) /\
  (r <> Panic -> forall t, f_entries (w_fs w') t <> None -> f_entries (w_fs w) t <> None \/ In t (w_refused w') \/
     exists st q b, In st streams /\ s_output st = Ok (OFile q) /\ entry_of q = Some t /\ has_conversion entry_of lib d b (w_fs w') q /\
       forall p, s_input st = IFile p -> exists s g, entry_of p = Some s /\ In g (moments w') /\ plain_file g s b).
Proof.
  intros H W. destruct (crypt_run _ _ _ _ _ _ H W) as (w1 & R).
  assert (K : forall t, f_entries (w_fs w') t <> None -> f_entries (w_fs w1) t <> None /\ intact (w_fs w1) (w_fs w') t).
  { intros t Nt. destruct (r_end _ _ _ _ _ _ _ R) as [(Q & _)|(cbs & errs & _ & _ & [Rm Rn] & _)].
    - rewrite Q in *. split; [exact Nt|]. apply extends_refl, Nt.
    - split; [apply Rn, Nt|]. destruct (Rm t) as [I|[_ I]]; [exact I|contradiction]. }
  split.
  - intros t Nt. destruct (K t Nt) as [K1 _]. exact (r_new _ _ _ _ _ _ _ R t K1).
  - intros Nr t Nt. destruct (K t Nt) as [K1 [K2 K3]]. destruct (r_kept _ _ _ _ _ _ _ R Nr t K1) as [I|[I|(st & I & q & b & Eo & Et & Rb & Hc)]].
    + auto.
    + right. left. apply (r_refused _ _ _ _ _ _ _ R), I.
    + right. right. exists st, q, b. split; [exact I|]. split; [exact Eo|]. split; [exact Et|]. split.
      * destruct Hc as (t' & c & Et' & (i & P1 & P2) & Ic). assert (t' = t) by congruence. subst t'. exists t, c. split; [exact Et|]. split; [|exact Ic].
        exists i. split; [congruence|]. rewrite K3; assumption.
      * intros p Ep. destruct (Rb p Ep) as (s & Es & Ps). exists s, (w_fs w1). split; [exact Es|]. split; [|exact Ps]. apply (run_moments _ _ _ _ _ _ _ R). left. reflexivity.
Qed.

(** ** Success and failure *)

Lemma came_to_ok d l w cbs errs w' : came_to entry_of lib d l w cbs errs w' -> errs = [] -> forall st, In st l ->
  s_output st = Ok OStdout \/
  exists q t b, s_output st = Ok (OFile q) /\ entry_of q = Some t /\ f_entries (w_fs w) t = None /\
    reads entry_of (w_fs w') (s_input st) b /\ has_conversion entry_of lib d b (w_fs w') q.
Proof.
  induction 1 as [w w' Q|st l w w1 cbs errs w' G A Op K H IH|st l w w1 e cbs errs w' G A K H IH]; intros E st' I; [destruct I| |discriminate E].
  destruct I as [<-|I].
  - destruct K as [[_ K]|(q & t & b & Eo & Et & En & Rb & Hb)]; [auto|]. right. exists q, t, b. split; [exact Eo|]. split; [exact Et|]. split; [exact En|].
    pose proof (came_to_grows _ _ _ _ _ _ _ _ H) as G'. split; [|eapply has_extends; [exact Hb|exact (g_now _ _ G')]].
    eapply reads_extends; [exact Rb|]. eapply extends_trans; [exact (g_now _ _ G)|exact (g_now _ _ G')].
  - destruct (IH E st' I) as [K'|(q & t & b & Eo & Et & En & K')]; [auto|]. right. exists q, t, b. split; [exact Eo|]. split; [exact Et|]. split; [|exact K'].
    destruct (f_entries (w_fs w) t) eqn:Ew; [|reflexivity]. exfalso. destruct (g_now _ _ G t) as [J _]; congruence.
Qed.

Lemma reported_success streams policy d w w' : crypt_streams entry_of lib streams policy false d w (Ok tt) w' -> wf_fs (w_fs w) ->
  all_converted entry_of lib streams d w w'.
Proof.
  intros H W st I. destruct (crypt_run _ _ _ _ _ _ H W) as (w1 & R).
  destruct (r_errors _ _ _ _ _ _ _ R (or_introl eq_refl)) as (cbs & errs & C & [E _]).
  destruct (came_to_ok _ _ _ _ _ _ C (E eq_refl) st I) as [K|(q & t & b & Eo & Et & En & Rb & Hc)]; [auto|].
  right. exists q, t, b, (w_fs w1). do 3 (split; [assumption|]). split; [apply (run_moments _ _ _ _ _ _ _ R); left; reflexivity|]. split; [exact Hc|]. split.
  - intros Sep. destruct (r_end _ _ _ _ _ _ _ R) as [(Q & _)|(cbs' & errs' & C' & _ & [Rm _] & _)]; [rewrite Q; exact Hc|].
    destruct Hc as (t' & c & Et' & (i & P1 & P2) & Ic). exists t', c. split; [exact Et'|]. split; [|exact Ic].
    destruct (Rm t') as [[J1 J2]|[J1 _]]; [exists i; split; [congruence|rewrite J2; assumption]|].
    exfalso. apply in_entries in J1 as (p' & J1 & Ep2). destruct (came_to_cbs _ _ _ _ _ _ _ _ C' p' J1) as (st' & s' & b' & Is' & Ei' & _).
    eapply Sep; [exact Is'|exact I|exact Ei'|exact Eo|exact Ep2|exact Et'].
  - intros p Ei. destruct (Rb p Ei) as (s & Es & Ps). exists s. split; [exact Es|]. split; [exact Ps|]. intros Ns.
    destruct (g_now _ _ (r_grows _ _ _ _ _ _ _ R) s Ns) as [B1 B2]. destruct Ps as (i & P1 & P2). exists i. split; [congruence|]. rewrite <- B2; [exact P2|congruence].
Qed.

Lemma converted_same streams d w w1 w' : same_files w1 w' -> all_converted entry_of lib streams d w w1 -> all_converted entry_of lib streams d w w'.
Proof. intros Q H st I. specialize (H st I). rewrite (moments_same _ _ Q), (proj1 Q). exact H. Qed.

Lemma came_to_new d l w cbs errs w' : came_to entry_of lib d l w cbs errs w' ->
  forall t, f_entries (w_fs w') t <> None -> f_entries (w_fs w) t <> None \/ exists st q, In st l /\ s_output st = Ok (OFile q) /\ entry_of q = Some t.
Proof.
  induction 1 as [w w' Q|st l w w1 cbs errs w' G A Op K H IH|st l w w1 e cbs errs w' G A K H IH]; intros t Ht.
  - rewrite <- (proj1 Q). auto.
  - destruct (IH t Ht) as [I|(st' & q & I & J)]; [|right; exists st', q; split; [right; exact I|exact J]].
    destruct (A t I) as [I'|(q & J)]; [auto|]. right. exists st, q. split; [left; reflexivity|exact J].
  - destruct (IH t Ht) as [I|(st' & q & I & J)]; [|right; exists st', q; split; [right; exact I|exact J]].
    destruct (A t I) as [I'|(q & J)]; [auto|]. right. exists st, q. split; [left; reflexivity|exact J].
Qed.

(** With distinct outputs a stream that fails has no new output. *)
Lemma distinct_cons st l : distinct_outputs entry_of (st :: l) -> distinct_outputs entry_of l /\
  forall st' q q' t, In st' l -> s_output st = Ok (OFile q) -> s_output st' = Ok (OFile q') -> entry_of q = Some t -> entry_of q' <> Some t.
Proof.
  intros D. split.
  - intros l1 x l2 y l3 q q' t E. apply (D (st :: l1) x l2 y l3). rewrite E. reflexivity.
  - intros st' q q' t I. apply in_split in I as (l1 & l2 & ->). apply (D [] st l1 st' l2). reflexivity.
Qed.
Lemma came_to_fail d l w cbs errs w' : came_to entry_of lib d l w cbs errs w' -> distinct_outputs entry_of l -> errs <> [] ->
  exists st, In st l /\ forall q t, s_output st = Ok (OFile q) -> entry_of q = Some t ->
    f_entries (w_fs w) t <> None \/ In t (w_refused w') \/ f_entries (w_fs w') t = None.
Proof.
  induction 1 as [w w' Q|st l w w1 cbs errs w' G A Op K H IH|st l w w1 e cbs errs w' G A K H IH]; intros D Ne.
  - contradiction Ne. reflexivity.
  - destruct (distinct_cons _ _ D) as [D1 D2]. destruct (IH D1 Ne) as (st' & I & J). exists st'. split; [right; exact I|].
    intros q' t Eo Et. destruct (J q' t Eo Et) as [X|X]; [|auto]. left. destruct (A t X) as [X'|(q & Eq & Eqt)]; [exact X'|].
    exfalso. eapply D2; eassumption.
  - destruct (distinct_cons _ _ D) as [D1 D2]. exists st. split; [left; reflexivity|]. intros q t Eo Et.
    destruct K as [K|(q' & t' & Eo' & Et' & _ & K)].
    + destruct (f_entries (w_fs w) t) eqn:Ew; [left; discriminate|]. right. right.
      destruct (f_entries (w_fs w') t) eqn:Ew'; [|reflexivity]. exfalso.
      destruct (came_to_new _ _ _ _ _ _ H t) as [X|(st' & q' & I & Eo' & Et')]; [congruence| |].
      * rewrite (proj1 K) in X. contradiction.
      * eapply D2; eassumption.
    + right. left. assert (t' = t) by congruence. subst t'. apply (g_refused _ _ (came_to_grows _ _ _ _ _ _ _ _ H)), K.
Qed.

Lemma reported_failure streams policy d w w' : crypt_streams entry_of lib streams policy false d w (Err CComposite) w' -> wf_fs (w_fs w) ->
  distinct_outputs entry_of streams ->
  exists st, In st streams /\ forall q t, s_output st = Ok (OFile q) -> entry_of q = Some t ->
    f_entries (w_fs w) t <> None \/ In t (w_refused w') \/ f_entries (w_fs w') t = None.
Proof.
  intros H W D. destruct (crypt_run _ _ _ _ _ _ H W) as (w1 & R).
  destruct (r_errors _ _ _ _ _ _ _ R (or_intror eq_refl)) as (cbs & errs & C & [_ E]).
  destruct (came_to_fail _ _ _ _ _ _ C D) as (st & I & J); [intros X; apply E in X; discriminate X|].
  exists st. split; [exact I|]. intros q t Eo Et. destruct (J q t Eo Et) as [X|[X|X]]; [auto|right; left; apply (r_refused _ _ _ _ _ _ _ R), X|].
  right. right. destruct (f_entries (w_fs w') t) eqn:Ew; [|reflexivity]. exfalso.
  destruct (r_end _ _ _ _ _ _ _ R) as [(Q & _)|(c' & e' & _ & _ & [_ Rn] & _)]; [congruence|]. apply (Rn t); congruence.
Qed.
End Crypt.

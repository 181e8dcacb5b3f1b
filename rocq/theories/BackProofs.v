(** Proofs that decryption undoes encryption in the whole file system. *)
From Coq.Strings Require Import Byte String.
From Coq Require Import List NArith ZArith Bool PeanoNat Lia.
From Verif Require Import Base BaseFacts Shamir Errors Io HeaderIoSpec StreamSpec Text Util CliErrors Crypto HeaderCrypto CredSpec FileCrypto Ui UiSpec Paths Cli Fs Commands FsSpec
  FsProofs FsProofs2 FsProofs3 FsProofs4 FsProofs5 FsProofs6 FsProofs11 FsProofs12 FsProofs10 HeaderCryptoProofs4 HistoryProofs FlowProofs PropFs PropFs2 BackSpec.
Import ListNotations.
Local Open Scope N_scope.

Lemma came_to_inputs e lib d l w cbs errs w' : came_to e lib d l w cbs errs w' -> errs = [] -> forall st p, In st l -> s_input st = IFile p -> In p cbs.
Proof.
  induction 1 as [w w' Q|st l w w1 cbs errs w' G A Op K H IH|st l w w1 x cbs errs w' G A K H IH]; intros E st' p I Ei.
  - destruct I.
  - apply in_or_app. destruct I as [<-|I]; [left; rewrite Ei; left; reflexivity|right; eapply IH; eassumption].
  - discriminate E.
Qed.

(** With the request to remove originals, a run that reports success has removed them. *)
Lemma success_removes e lib streams d w w' : lib_ok lib -> faulty e = false -> wf_fs (w_fs w) ->
  crypt_streams e lib streams DeleteFiles false d w (Ok tt) w' ->
  forall st p s, In st streams -> s_input st = IFile p -> e p = Some s -> f_entries (w_fs w') s = None.
Proof.
  intros Hl Fy W H st p s I Ei Es. unfold crypt_streams in H. apply bind_ok_inv in H as ([cbs errs] & w1 & Hp & H). apply bind_ok_inv in H as (u & w2 & Hc & [E ->]).
  assert (errs = []) as -> by (destruct errs; [reflexivity|discriminate E]).
  destruct (process_spec e lib Hl _ _ _ _ _ Hp) as (G & _ & _ & C). specialize (C _ _ eq_refl).
  pose proof (came_to_inputs _ _ _ _ _ _ _ _ C eq_refl st p I Ei) as Ip.
  assert (Hr : exists r2, remove_all e cbs false w1 r2 w2).
  { destruct cbs as [|x cbs]; [destruct Ip|]. apply bind_ok_inv in Hc as (b & w3 & [X ->] & Hc). injection X as ->. eauto. }
  destruct Hr as [r2 Hr]. destruct (remove_all_ready e Fy false cbs _ _ _ Hr) as [A _]; [|exact (A p s Ip Es)].
  intros p' s' I' Es'. destruct (came_to_cbs _ _ _ _ _ _ _ _ C p' I') as (_ & s1 & b & _ & _ & Es1 & (i & Pb & _) & _). congruence.
Qed.

Lemma removed_wf l f g : removed l f g -> wf_fs f -> wf_fs g.
Proof.
  intros [R _] [A B]. assert (K : forall s i, f_entries g s = Some (EFile i) -> f_entries f s = Some (EFile i) /\ f_nodes g i = f_nodes f i).
  { intros s i E. destruct (R s) as [[I J]|[_ I]]; [|congruence]. split; [congruence|]. apply J. congruence. }
  split.
  - intros s i E. destruct (K s i E) as [E' En]. destruct (A s i E') as (n & X). exists n. rewrite En. exact X.
  - intros s t i n E1 E2 D En. destruct (K s i E1) as [E1' X], (K t i E2) as [E2' _]. apply (B s t i n E1' E2' D). congruence.
Qed.
Lemma crypt_wf e lib streams policy d w r w' : lib_ok lib -> crypt_streams e lib streams policy false d w r w' -> wf_fs (w_fs w) -> wf_fs (w_fs w').
Proof.
  intros Hl H W. destruct (crypt_run e lib Hl _ _ _ _ _ _ H W) as (w1 & R). pose proof (g_wf _ _ (r_grows _ _ _ _ _ _ _ _ _ R) W) as W1.
  destruct (r_end _ _ _ _ _ _ _ _ _ R) as [Q|(cbs & errs & _ & _ & Rm & _)]; [rewrite (proj1 Q); exact W1|eapply removed_wf; eassumption].
Qed.

Lemma crypt_spacious e lib streams policy force d w r w' : crypt_streams e lib streams policy force d w r w' -> spacious (w_fs w) -> spacious (w_fs w').
Proof.
  intros H S. refine (proj1 (crypt_within (fun _ => True) (fun _ => True) e lib _ _ _ _ _ _ _ H _ spacious _ S)); [split; auto|].
  intros f g T. destruct T; [apply spacious_add|apply spacious_content|apply spacious_unlink].
Qed.

Lemma in_conversions l st : In st (conversions l) <-> exists p q, In (p, q) l /\ st = mkStream (IFile p) (Ok (OFile q)).
Proof. unfold conversions. rewrite in_map_iff. split; [intros ([p q] & <- & I); eauto|intros (p & q & I & ->); exists (p, q); auto]. Qed.
Lemma conversions_files l : file_to_file (conversions l).
Proof. intros st p I _. apply in_conversions in I as (p' & q & _ & ->). discriminate. Qed.
Lemma plain_dec f s : (exists b, plain_file f s b) \/ forall b, ~ plain_file f s b.
Proof.
  destruct (f_entries f s) as [[i| |]|] eqn:E; try (right; intros b (j & X & _); congruence).
  destruct (f_nodes f i) as [n|] eqn:En; [|right; intros b (j & X & Y); congruence].
  destruct n as [[|] c k]; [|right; intros b (j & X & Y); assert (j = i) by congruence; subst j; congruence].
  destruct (N.eq_dec k 1) as [->|D]; [left; exists c, i; auto|]. right. intros b (j & X & Y). assert (j = i) by congruence. subst j. congruence.
Qed.

Lemma undone e lib pairs back policy policy' c d fast w w1 v v1 : lib_ok lib -> wf_fs (w_fs w) -> w_past w = [] -> w_past v = [] -> faulty e = false ->
  wf_cred c -> leaves c = [c] -> (forall cs, lib (alg_of fast) = Some cs -> matches cs c d /\ decryption_cred cs d) ->
  separate e (conversions pairs) -> (forall p q, In (p, q) pairs -> exists s b, e p = Some s /\ plain_file (w_fs w) s b) ->
  (forall p q, In (q, p) back <-> In (p, q) pairs) ->
  crypt_streams e lib (conversions pairs) policy false (DoEncrypt (Complex [(1, c)] 1 1) fast) w (Ok tt) w1 ->
  w_fs v = w_fs w1 -> crypt_streams e lib (conversions back) policy' false (DoDecrypt [d]) v (Ok tt) v1 ->
  (forall s b, plain_file (w_fs w) s b -> plain_file (w_fs v1) s b) /\
  (forall s, f_entries (w_fs w) s <> None -> (forall b, ~ plain_file (w_fs w) s b) -> intact (w_fs w) (w_fs v1) s) /\
  (policy' = DeleteFiles -> forall s, f_entries (w_fs w) s = None -> f_entries (w_fs v1) s = None).
Proof.
  intros Hl W P P' Fy Wc Lc Mc Sp Th Bk H1 Ev H2.
  assert (W1 : wf_fs (w_fs v)).
  { rewrite Ev. exact (crypt_wf e lib _ _ _ _ _ _ Hl H1 W). }
  assert (Sp' : separate e (conversions back)).
  { intros st st' p q s I I' Ei Eo Es Eq. apply in_conversions in I as (p1 & q1 & I & ->), I' as (p2 & q2 & I' & ->). injection Ei as ->. injection Eo as ->.
    apply Bk in I, I'. eapply (Sp (mkStream (IFile q) (Ok (OFile p2))) (mkStream (IFile q1) (Ok (OFile p)))); [apply in_conversions; eauto..|reflexivity|reflexivity|exact Eq|exact Es]. }
  assert (Wg : wf_cred (Complex [(1, c)] 1 1)) by (constructor; [constructor; [cbn; lia|constructor]|constructor; [exact Wc|constructor]|reflexivity|reflexivity]).
  (* the outputs are new *)
  assert (New : forall p q t, In (p, q) pairs -> e q = Some t -> f_entries (w_fs w) t = None).
  { intros p q t I Et. destruct (C31_success_means_all_converted _ _ _ _ _ _ _ Hl W H1 (mkStream (IFile p) (Ok (OFile q)))) as [X|(q' & t' & b & f & X & Et' & N & _)];
      [apply in_conversions; eauto|discriminate X|]. injection X as <-. congruence. }
  (* files that are not named stay *)
  assert (Stay : forall s, f_entries (w_fs w) s <> None -> (forall p q, In (p, q) pairs -> e p <> Some s) -> intact (w_fs w) (w_fs v1) s).
  { intros s Ns No. assert (I1 : intact (w_fs w) (w_fs w1) s).
    { destruct (C28_existing_files_survive e lib _ _ _ _ _ _ Hl W P (conversions_files _) H1 (w_fs w1) s (or_introl eq_refl) Ns) as [K|(_ & _ & st & q & b & f & I & (p & Ei & Es & _) & _)]; [exact K|].
      apply in_conversions in I as (p1 & q1 & I & ->). injection Ei as ->. destruct (No _ _ I Es). }
    eapply intact_trans; [exact I1|]. rewrite <- Ev in I1 |- *. pose proof (intact_entry _ _ _ I1 Ns) as Nv.
    destruct (C28_existing_files_survive e lib _ _ _ _ _ _ Hl W1 P' (conversions_files _) H2 (w_fs v1) s (or_introl eq_refl) Nv) as [K|(_ & _ & st & q & b & f & I & (p & Ei & Es & _) & _)]; [exact K|].
    exfalso. apply in_conversions in I as (p1 & q1 & I & ->). injection Ei as ->. apply Bk in I. exact (Ns (New _ _ _ I Es)). }
  assert (Named : forall s, (exists p q, In (p, q) pairs /\ e p = Some s) \/ forall p q, In (p, q) pairs -> e p <> Some s).
  { intros s. clear. induction pairs as [|[p q] l [(p' & q' & I & E)|IH]]; [right; intros p q []|left; exists p', q'; split; [right; exact I|exact E]|].
    destruct (e p) as [t|] eqn:E; [destruct (N.eq_dec t s) as [->|D]|].
    - left. exists p, q. split; [left; reflexivity|exact E].
    - right. intros p' q' [[= <- <-]|I]; [congruence|eapply IH, I].
    - right. intros p' q' [[= <- <-]|I]; [congruence|eapply IH, I]. }
  split; [|split].
  - intros s b Pb. destruct (Named s) as [(p & q & I & Es)|No].
    + destruct (C57_decryption_restores_files e lib _ _ _ _ _ _ w w1 Hl W Sp Wg H1 (mkStream (IFile p) (Ok (OFile q))) s q b) as (u & c0 & er & ser & cod & chunk & Eu & Pu & Hr & He & Hh & Z);
        [apply in_conversions; eauto|exists p; auto|exact Pb|].
      assert (Ecs : lib (alg_of fast) = Some (co_cs cod)) by exact (encrypt_header_algorithm lib _ _ _ _ _ He). destruct (Mc _ Ecs) as [Mm Md].
      destruct (Z [d]) as [_ Z'].
      * constructor; [exact Md|constructor].
      * intros i l ct dd Hi _ [<-|[]] _. cbn [leaves map concat snd] in Hi. rewrite Lc in Hi. cbn [app] in Hi. destruct i as [|[|i]]; [injection Hi as <-; exact Mm|discriminate Hi..].
      * destruct (Z' e _ _ v v1 W1 Sp' H2 (mkStream (IFile q) (Ok (OFile p))) u p) as (_ & t' & Et' & Pt').
        { apply in_conversions. exists q, p. split; [apply Bk, I|reflexivity]. } { exists q. auto. } { rewrite Ev. exact Pu. }
        assert (t' = s) by congruence. subst t'. exact Pt'.
    + apply (plain_intact (w_fs w)); [exact Pb|]. apply Stay; [|exact No]. destruct Pb as (i & X & _). congruence.
  - intros s Ns Np. apply Stay; [exact Ns|]. intros p q I Es. destruct (Th _ _ I) as (s' & b & Es' & Pb). assert (s' = s) by congruence. subst s'. exact (Np b Pb).
  - intros -> s Ns. destruct (f_entries (w_fs v1) s) eqn:E1; [|reflexivity]. exfalso. assert (N1 : f_entries (w_fs v1) s <> None) by congruence.
    destruct (proj1 (new_files e lib Hl _ _ _ _ _ _ H2 W1) s N1) as [N2|(st & q & I & Eo & Eq)].
    + rewrite Ev in N2. destruct (proj1 (new_files e lib Hl _ _ _ _ _ _ H1 W) s N2) as [N3|(st & q & I & Eo & Eq)]; [contradiction|].
      apply in_conversions in I as (p & q1 & I & ->). injection Eo as ->.
      apply N1. eapply (success_removes e lib _ _ v v1 Hl Fy W1 H2 (mkStream (IFile q) (Ok (OFile p)))); [apply in_conversions; exists q, p; split; [apply Bk, I|reflexivity]|reflexivity|exact Eq].
    + apply in_conversions in I as (p & q1 & I & ->). injection Eo as ->. apply Bk in I. destruct (Th _ _ I) as (s' & b & Es' & (i & X & _)). congruence.
Qed.

(** Proofs about converting files without force. *)
From Coq.Strings Require Import Byte String.
From Coq Require Import List NArith ZArith Bool PeanoNat Lia.
From Verif Require Import Base BaseFacts Shamir Errors Io HeaderIoSpec StreamSpec Text Util CliErrors Crypto HeaderCrypto CredSpec FileCrypto Ui UiSpec Paths Cli Fs Commands FsSpec FsProofs ConvProofs.
Import ListNotations.
Local Open Scope N_scope.

Section WithEnvironment.
Variable entry_of : names.
Variable lib : crypto_lib.
Hypothesis Hlib : lib_ok lib.

(** How the file system can go on from [w]: all that was there stays as it is. *)
Record grows (w w' : world) : Prop := mkGrows {
  g_wf : wf_fs (w_fs w) -> wf_fs (w_fs w');
  g_now : extends (w_fs w) (w_fs w');
  g_moments : forall g, In g (moments w') -> In g (moments w) \/ extends (w_fs w) g;
  g_past : forall g, In g (moments w) -> In g (moments w');
  g_refused : forall t, In t (w_refused w) -> In t (w_refused w')
}.
Lemma same_grows w w' : same_files w w' -> grows w w'.
Proof.
  intros (A & B & C). unfold moments. constructor; unfold moments; rewrite ?A, ?B, ?C; auto. apply extends_refl.
Qed.
Lemma grows_trans w1 w2 w3 : grows w1 w2 -> grows w2 w3 -> grows w1 w3.
Proof.
  intros [A1 A2 A3 A4 A5] [B1 B2 B3 B4 B5]. constructor; auto.
  - eapply extends_trans; eassumption.
  - intros g Ig. destruct (B3 g Ig) as [I|E]; [apply A3, I|right; eapply extends_trans; eassumption].
Qed.

(** The content of the input of a stream, when it is a plain file. *)
Definition reads (f : fs) (i : input_stream) (b : bytes) : Prop :=
  forall p, i = IFile p -> exists s, entry_of p = Some s /\ plain_file f s b.
Definition opened_plain (f : fs) (i : input_stream) : Prop :=
  forall p, i = IFile p -> exists s b, entry_of p = Some s /\ plain_file f s b.
Lemma reads_extends f g i b : reads f i b -> extends f g -> reads g i b.
Proof. intros R E p Ep. destruct (R p Ep) as (s & A & B). exists s. split; [exact A|eapply plain_extends; eassumption]. Qed.

Lemma moments_same w w' : same_files w w' -> moments w' = moments w.
Proof. intros (A & B & _). unfold moments. congruence. Qed.

(** ** One conversion *)

Lemma convert_stdout d rd : quiet (convert entry_of lib d rd WriteStdout).
Proof.
  intros w r w' (er & src & room & fl & r0 & snk & k & _ & _ & _ & _ & [(_ & ->)|(_ & _ & out & _ & ->)]); repeat split.
Qed.

Lemma convert_new d rd t i f w r w' : w_fs w = add_file f t i -> convert entry_of lib d rd (WriteNode i) w r w' ->
  exists out, created f t i out (w_fs w') /\ w_refused w' = w_refused w /\
  (forall g, In g (moments w) -> In g (moments w')) /\
  (forall g, In g (moments w') -> In g (moments w) \/ exists out', created f t i out' g) /\
  (r = Ok tt -> exists b, is_conversion lib d b out /\
     forall j n, rd = ReadNode j -> f_nodes (w_fs w) j = Some n -> n_regular n = true -> j <> i -> b = n_content n).
Proof.
  intros Ew (er & src & room & fl & r0 & snk & k & Hr & Hk & Hp & Hc & K).
  assert (G : forall out, let w1 := write_out (WriteNode i) out w in let w' := set_ui w1 (progress_lines k (w_ui w1)) in
    created f t i out (w_fs w') /\ w_refused w' = w_refused w /\ (forall g, In g (moments w) -> In g (moments w')) /\
    (forall g, In g (moments w') -> In g (moments w) \/ exists out', created f t i out' g)).
  { intros out. cbv zeta. destruct (write_created f t i w Ew out _ eq_refl) as (A & B & (l & C) & D).
    split; [exact A|]. split; [exact B|]. split.
    - intros g [<-|Ig]; [|right; cbn [set_ui w_past]; rewrite C; apply in_or_app; right; exact Ig].
      unfold moments. cbn [set_ui w_fs w_past]. clear - Ew. unfold write_out. destruct (f_nodes (w_fs w) i) as [n|]; [|left; reflexivity].
      destruct (n_regular n); [|left; reflexivity].
      assert (Z : forall m w0, In (w_fs w) (w_fs w0 :: w_past w0) ->
        In (w_fs w) (w_fs (fold_left (fun w k => set_fs w (set_content (w_fs w) i (n_content n ++ firstn k out))) m w0) ::
                     w_past (fold_left (fun w k => set_fs w (set_content (w_fs w) i (n_content n ++ firstn k out))) m w0))).
      { induction m as [|x m IH]; intros w0 I; [exact I|]. cbn [fold_left]. apply IH. right. exact I. }
      apply Z. left. reflexivity.
    - intros g Ig. destruct (D g Ig) as [I|(o & _ & I)]; eauto. }
  destruct K as [(-> & ->)|(-> & _ & out & _ & ->)].
  - exists (w_out snk). destruct (G (w_out snk)) as (A & B & C & D). do 4 (split; [assumption|]). intros E.
    assert (r0 = Ok tt) as -> by (destruct r0 as [[]| |]; [reflexivity|discriminate E..]).
    exists (flat src). pose proof (conversion_reads_all lib Hlib _ _ _ _ _ Hr Hc) as Ee. split.
    + exists er, src, room, fl, snk. auto.
    + intros j n -> Ej Rn Nj. unfold provides in Hp. rewrite Ej, Ee in Hp. apply Hp; [exact Rn|]. intros [= X]. exact (Nj (eq_sym X)).
  - exists out. destruct (G out) as (A & B & C & D). do 4 (split; [assumption|]). discriminate.
Qed.

(** ** One stream *)

Lemma attempt_spec {k n} st d w r w' : attempt entry_of lib k n st false d w r w' ->
  (same_files w w' /\ (r = Panic \/ exists x, r = Ok (x, None) /\ (x = Ok tt -> s_output st = Ok OStdout /\ opened_plain (w_fs w) (s_input st)) /\ x <> Panic)) \/
  (exists q t i out, s_output st = Ok (OFile q) /\ entry_of q = Some t /\ fresh (w_fs w) t i /\ created (w_fs w) t i out (w_fs w') /\
     w_refused w' = w_refused w /\ (forall g, In g (moments w) -> In g (moments w')) /\
     (forall g, In g (moments w') -> In g (moments w) \/ exists out', created (w_fs w) t i out' g) /\
     opened_plain (w_fs w) (s_input st) /\
     (r = Panic \/ exists x, r = Ok (x, Some q) /\ x <> Panic /\
        (x = Ok tt -> exists b, is_conversion lib d b out /\ reads (w_fs w) (s_input st) b))).
Proof.
  intros H. unfold attempt in H.
  match type of H with io_bind (io_try ?m) _ _ _ _ => set (opening := m) in H end.
  assert (O : forall w r w', opening w r w' ->
    (same_files w w' /\ (forall x, r = Ok x -> s_output st = Ok OStdout /\ snd (fst x) = WriteStdout /\ snd x = None /\ opened_plain (w_fs w) (s_input st))) \/
    (exists q t i rd, s_output st = Ok (OFile q) /\ entry_of q = Some t /\ fresh (w_fs w) t i /\ r = Ok (rd, WriteNode i, Some q) /\
       w_fs w' = add_file (w_fs w) t i /\ w_past w' = moments w /\ w_refused w' = w_refused w /\
       (forall p, s_input st = IFile p -> exists s j b, entry_of p = Some s /\ f_entries (w_fs w) s = Some (EFile j) /\ f_nodes (w_fs w) j = Some (mkNode true b 1) /\ rd = ReadNode j))).
  { clear. intros w r w' H. unfold opening in H.
    destruct H as [(x & w1 & H1 & H)|[(e & H1 & ->)|(H1 & ->)]];
      [|left; split; [eapply quiet_ui, H1|discriminate]..].
    apply quiet_ui in H1. destruct H as [(o & w2 & H2 & H)|[(e & H2 & ->)|(H2 & ->)]];
      [|left; split; [eapply same_trans; [exact H1|eapply quiet_lift, H2]|discriminate]..].
    destruct H2 as [Eo ->]. destruct H as [(rd & w3 & H3 & H)|[(e & H3 & ->)|(H3 & ->)]];
      [|left; split; [eapply same_trans; [exact H1|eapply quiet_open_input, H3]|discriminate]..].
    assert (Pl : forall p, s_input st = IFile p -> exists s j b, entry_of p = Some s /\ f_entries (w_fs w) s = Some (EFile j) /\ f_nodes (w_fs w) j = Some (mkNode true b 1) /\ rd = ReadNode j).
    { intros p Ep. rewrite Ep in H3. apply open_input_file in H3 as (s & j & b & A & B & C & D). rewrite (proj1 H1) in B, C. eauto 8. }
    pose proof (quiet_open_input _ _ _ _ _ _ H3) as Q3. pose proof (same_trans _ _ _ H1 Q3) as Q. clear H1 Q3 H3.
    destruct H as [(wr & w4 & H4 & H)|[(e & H4 & ->)|(H4 & ->)]].
    - destruct H as [-> ->]. destruct o as [q|]; cbn [open_output output_cleanup] in *.
      + right. destruct H4 as [[E _]|(t & i & Et & F1 & [F2 F3] & E & ->)]; [discriminate E|]. injection E as ->.
        destruct Q as (Q1 & Q2 & Q4). rewrite Q1 in F1, F2, F3. exists q, t, i, rd. split; [congruence|]. split; [exact Et|]. split; [exact (conj F1 (conj F2 F3))|].
        split; [reflexivity|]. cbn [set_fs w_fs w_past w_refused]. rewrite Q1, Q2. split; [reflexivity|]. split; [reflexivity|]. split; [exact Q4|]. exact Pl.
      + left. destruct H4 as [E ->]. injection E as ->. split; [exact Q|]. intros y [= <-]. split; [congruence|]. split; [reflexivity|]. split; [reflexivity|].
        intros p Ep. destruct (Pl p Ep) as (s & j & b & A & B & C & _). exists s, b. split; [exact A|]. exists j. auto.
    - left. split; [|discriminate]. destruct o as [q|]; cbn [open_output] in H4; [|destruct H4 as [E _]; discriminate E].
      destruct H4 as [(_ & -> & _)|(t & i & _ & _ & _ & E & _)]; [exact Q|discriminate E].
    - left. split; [|discriminate]. destruct o as [q|]; cbn [open_output] in H4; [|destruct H4 as [E _]; discriminate E].
      destruct H4 as [(_ & -> & _)|(t & i & _ & _ & _ & E & _)]; [exact Q|discriminate E]. }
  clearbody opening.
  destruct H as [(op & w1 & H1 & H)|[(e & H1 & ->)|(H1 & ->)]].
  2:{ destruct H1 as [(x & _ & _ & E)|(_ & E)]; discriminate E. }
  2:{ destruct H1 as [(x & _ & _ & E)|(H1 & _)]; [discriminate E|]. destruct (O _ _ _ H1) as [(Q & _)|(q & t & i & rd & _ & _ & _ & E & _)]; [|discriminate E].
      left. split; [exact Q|left; reflexivity]. }
  destruct H1 as [(x & Nx & H1 & E)|(_ & E)]; [|discriminate E]. injection E as ->.
  destruct (O _ _ _ H1) as [(Q & Hx)|(q & t & i & rd & Eo & Et & F & -> & Ef & Ep & Er & Pl)]; clear O H1.
  - left. destruct x as [[[rd wr] cb]|e|]; [|destruct H as [-> ->]; split; [exact Q|]; right; exists (Err e); split; [reflexivity|split; discriminate]|contradiction Nx; reflexivity].
    destruct (Hx _ eq_refl) as (Eo & Ew & Ec & Op). cbn [fst snd] in Ew, Ec. subst wr cb.
    destruct H as [(rr & w2 & H2 & H)|[(e & H2 & ->)|(H2 & ->)]].
    + destruct H as [-> ->]. split; [eapply same_trans; [exact Q|eapply quiet_try; [apply convert_stdout|exact H2]]|]. right. exists rr. split; [reflexivity|]. split; [auto|].
      destruct H2 as [(y & Ny & _ & E)|(_ & E)]; [|discriminate E]. injection E as ->. exact Ny.
    + destruct H2 as [(y & _ & _ & E)|(_ & E)]; discriminate E.
    + split; [eapply same_trans; [exact Q|eapply quiet_try; [apply convert_stdout|exact H2]]|]. left. reflexivity.
  - right. exists q, t, i.
    assert (Mo : forall w2 out, created (w_fs w) t i out (w_fs w2) /\ w_refused w2 = w_refused w1 /\
       (forall g, In g (moments w1) -> In g (moments w2)) /\ (forall g, In g (moments w2) -> In g (moments w1) \/ exists out', created (w_fs w) t i out' g) ->
       created (w_fs w) t i out (w_fs w2) /\ w_refused w2 = w_refused w /\ (forall g, In g (moments w) -> In g (moments w2)) /\
       (forall g, In g (moments w2) -> In g (moments w) \/ exists out', created (w_fs w) t i out' g)).
    { intros w2 out (A & B & C & D). split; [exact A|]. split; [congruence|]. unfold moments at 1 in C. unfold moments at 2 in D. rewrite Ef, Ep in C, D. split.
      - intros g Ig. apply C. right. exact Ig.
      - intros g Ig. destruct (D g Ig) as [[<-|I]|I]; [right; exists []; unfold add_file, created, update; cbn [f_entries f_nodes]; split; reflexivity|left; exact I|right; exact I]. }
    assert (Op : opened_plain (w_fs w) (s_input st)).
    { intros p Epp. destruct (Pl p Epp) as (s & j & b & A & B & C & _). exists s, b. split; [exact A|]. exists j. auto. }
    destruct H as [(rr & w2 & H2 & H)|[(e & H2 & ->)|(H2 & ->)]].
    + destruct H as [-> ->]. destruct H2 as [(y & Ny & H2 & E)|(_ & E)]; [|discriminate E]. injection E as ->.
      destruct (convert_new d rd t i (w_fs w) _ _ _ Ef H2) as (out & A & B & C & D & Hc). exists out.
      destruct (Mo w2 out (conj A (conj B (conj C D)))) as (A' & B' & C' & D').
      do 3 (split; [assumption|]). do 5 (split; [assumption|]). right. exists y. split; [reflexivity|]. split; [exact Ny|]. intros Ey.
      destruct (Hc Ey) as (b & Hb & Hn). exists b. split; [exact Hb|]. intros p Epp. destruct (Pl p Epp) as (s & j & b' & A1 & B1 & C1 & Er1).
      exists s. split; [exact A1|]. exists j. split; [exact B1|]. destruct F as (F1 & F2 & F3).
      assert (Nj : j <> i) by (intros ->; congruence).
      rewrite (Hn j (mkNode true b' 1) Er1); [exact C1| |reflexivity|exact Nj]. rewrite Ef. unfold add_file, update. cbn [f_nodes].
      destruct (N.eqb_spec j i); [contradiction|exact C1].
    + destruct H2 as [(y & _ & _ & E)|(_ & E)]; discriminate E.
    + destruct H2 as [(y & _ & _ & E)|(H2 & _)]; [discriminate E|].
      destruct (convert_new d rd t i (w_fs w) _ _ _ Ef H2) as (out & A & B & C & D & Hc). exists out.
      destruct (Mo w' out (conj A (conj B (conj C D)))) as (A' & B' & C' & D').
      do 3 (split; [assumption|]). do 5 (split; [assumption|]). left. reflexivity.
Qed.

(** The removal of a failed output. *)
Lemma remove_cb_spec p force w r w' : remove_cb entry_of p force w r w' -> r = Ok tt /\
  ((same_files w w' /\ (forall s, entry_of p = Some s -> f_entries (w_fs w) s = None \/ f_entries (w_fs w) s = Some EDir)) \/
   (exists s, entry_of p = Some s /\ f_entries (w_fs w) s <> None /\ f_entries (w_fs w) s <> Some EDir /\
      ((w_fs w' = w_fs w /\ w_past w' = w_past w /\ w_refused w' = s :: w_refused w) \/
       (w_fs w' = unlink (w_fs w) s /\ w_past w' = moments w /\ w_refused w' = w_refused w)))).
Proof.
  intros H. unfold remove_cb in H.
  assert (U : forall e w r w', (if force then io_ret tt else io_ui (ignore (print_error e))) w r w' -> r = Ok tt /\ same_files w w').
  { clear. intros e w r w' H. destruct force; [destruct H as [-> ->]; split; [reflexivity|apply same_refl]|].
    pose proof (quiet_ui _ _ _ _ H) as Q. destruct H as [-> _]. split; [|exact Q]. unfold ignore.
    assert (fst (print_error e (w_ui w)) <> Panic) as NP by (unfold print_error, emit; destruct (will_print _ _); [destruct (u_room _) as [[|]|]|]; discriminate).
    destruct (print_error e (w_ui w)) as [[[]| |] u]; [reflexivity..|contradiction NP; reflexivity]. }
  destruct H as [(x & w1 & H1 & H)|[(e & H1 & ->)|(H1 & ->)]].
  2:{ destruct H1 as [(x & _ & _ & E)|(_ & E)]; discriminate E. }
  2:{ exfalso. destruct H1 as [(x & _ & _ & E)|(H1 & _)]; [discriminate E|]. unfold remove_file in H1.
      destruct (entry_of p) as [s|]; [destruct (f_entries (w_fs w) s) as [[]|]|]; intuition discriminate. }
  destruct H1 as [(y & Ny & H1 & E)|(_ & E)]; [|discriminate E]. injection E as ->.
  assert (K : r = Ok tt /\ same_files w1 w').
  { destruct y as [[]|e|]; [destruct H as [-> ->]; split; [reflexivity|apply same_refl]|exact (U e _ _ _ H)|contradiction Ny; reflexivity]. }
  destruct K as [-> K]. split; [reflexivity|]. unfold remove_file in H1. clear U H.
  destruct (entry_of p) as [s|] eqn:Es; [|destruct H1 as [_ ->]; left; split; [exact K|discriminate]].
  destruct (f_entries (w_fs w) s) as [en|] eqn:Ee; [|destruct H1 as [_ ->]; left; split; [exact K|intros s' [= <-]; auto]].
  assert (X : en = EDir \/ en <> EDir) by (destruct en; [right; discriminate|right; discriminate|left; reflexivity]).
  destruct X as [->|X]; [destruct H1 as [_ ->]; left; split; [exact K|intros s' [= <-]; auto]|].
  right. exists s. split; [reflexivity|]. split; [rewrite Ee; discriminate|]. split; [rewrite Ee; congruence|].
  destruct K as (K1 & K2 & K3). rewrite K1, K2, K3.
  destruct en as [i|t|]; [| |contradiction X; reflexivity]; destruct H1 as [(_ & _ & ->)|[_ ->]]; auto.
Qed.
End WithEnvironment.

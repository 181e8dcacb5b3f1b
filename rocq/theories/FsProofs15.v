(** Proofs that key pairs are generated if nothing stands in the way. *)
From Coq.Strings Require Import Byte String.
From Coq Require Import List NArith ZArith Bool PeanoNat Lia.
From Verif Require Import Base BaseFacts Shamir Errors Io HeaderIoSpec StreamSpec Text Util CliErrors Crypto HeaderCrypto CredSpec FileCrypto KeyFiles KeyProofs Ui UiSpec UiProofs Paths Cli Fs Commands FsSpec FsProofs ConvProofs FsProofs2 FsProofs4 FsProofs6 FsProofs8 FsProofs9 FsProofs11 FsProofs12 FsProofs13.
Import ListNotations.
Local Open Scope N_scope.

Section Sound.
Variable entry_of : names.
Variable lib : crypto_lib.
Variable sha512 : bytes -> bytes.
Hypothesis Hlib : lib_ok lib.
Hypothesis sound : faulty entry_of = false.

(** A terminal that works, room, and no files at [ts]. *)
Definition open_ground (ts : list N) (w : world) : Prop :=
  works (w_ui w) /\ spacious (w_fs w) /\ forall t, In t ts -> f_entries (w_fs w) t = None.
Definition achieves {A} (ts : list N) (m : io A) (rest : list N) : Prop := forall w r w', m w r w' -> open_ground ts w -> (exists a, r = Ok a) /\ open_ground rest w'.

Lemma achieves_bind {A B} ts ts1 ts2 (m : io A) (f : A -> io B) : achieves ts m ts1 -> (forall a, achieves ts1 (f a) ts2) -> achieves ts (io_bind m f) ts2.
Proof.
  intros M F w r w' [(a & w1 & H1 & H2)|[(e & H & _)|(H & _)]] O; destruct (M _ _ _ H O) as [[x Ex] O1] || destruct (M _ _ _ H1 O) as [_ O1]; try discriminate Ex. eapply F; eassumption.
Qed.
Lemma achieves_ret {A} ts (a : A) : achieves ts (io_ret a) ts.
Proof. intros w r w' [-> ->] O. eauto. Qed.
Lemma println_works t u : works u -> fst (ui_println 0 t u) = Ok tt /\ works (snd (ui_println 0 t u)).
Proof. intros W. unfold ui_println, emit. rewrite W. destruct (will_print u 0); (split; [reflexivity|exact W]). Qed.
Lemma achieves_println ts t : achieves ts (io_ui (ui_println 0 t)) ts.
Proof.
  intros w r w' [-> ->] (A & B & C). destruct (println_works t _ A) as [E W]. split; [eexists; exact E|]. split; [exact W|]. split; [exact B|exact C].
Qed.
Lemma write_node_ui i d w : w_ui (write_out (WriteNode i) d w) = w_ui w.
Proof.
  unfold write_out. destruct (f_nodes (w_fs w) i) as [n|]; [|reflexivity]. destruct (n_regular n); [|reflexivity]. generalize (seq 1 (length d)). intros l. generalize w.
  induction l as [|k l IH]; intros w0; [reflexivity|]. cbn [fold_left]. rewrite IH. reflexivity.
Qed.
Lemma achieves_text wr i f t rest txt : wr = WriteNode i -> fresh f t i -> (forall t', In t' rest -> f_entries f t' = None) -> ~ In t rest ->
  forall w r w', write_text entry_of wr txt w r w' -> w_fs w = add_file f t i -> works (w_ui w) -> spacious (w_fs w) -> (exists a, r = Ok a) /\ open_ground rest w'.
Proof.
  intros -> F N D w r w' [(-> & ->)|(E & _)] Ew W S; [|congruence]. split; [eauto|].
  destruct (write_created f t i w Ew (utf8 txt) _ eq_refl) as ((C & _) & _). split; [rewrite write_node_ui; exact W|]. split; [apply spacious_write, S|].
  intros t' I. rewrite C. destruct (N.eqb_spec t' t) as [->|_]; [contradiction|]. apply N, I.
Qed.
Lemma achieves_write o ts rest txt : (forall p, o = OFile p -> exists t, entry_of p = Some t /\ ts = t :: rest /\ ~ In t rest) -> (o = OStdout -> ts = rest) ->
  achieves ts (let! wr := open_output entry_of o false in write_text entry_of wr txt) rest.
Proof.
  intros Hf Hs w r w' H (A & B & C). destruct o as [p|].
  - destruct (Hf p eq_refl) as (t & Et & -> & Nt).
    destruct H as [(wr & w1 & H1 & H)|[(e & H1 & _)|(H1 & _)]];
      (destruct (create_ready entry_of sound p t _ _ _ Et (C t (or_introl eq_refl)) ltac:(destruct (B []) as (i & U & _); eauto) H1) as (i & F & E & ->); try discriminate E).
    injection E as ->. eapply (achieves_text (WriteNode i) i (w_fs w) t rest txt); try eassumption; try reflexivity.
    + intros t' I. apply C. right. exact I.
    + apply spacious_add, B.
  - rewrite (Hs eq_refl) in C. destruct H as [(wr & w1 & [E ->] & H)|[(e & [E _] & _)|([E _] & _)]]; try discriminate E. injection E as ->.
    destruct H as [(-> & ->)|(E & _)]; [|congruence]. split; [eauto|]. split; [exact A|]. split; [exact B|exact C].
Qed.

Lemma pair_achieves ks pub priv ts rest : map entry_of (key_files ks) = map Some ts -> NoDup (ts ++ rest) ->
  achieves (ts ++ rest) (write_pair entry_of ks false pub priv) rest.
Proof.
  unfold key_files, write_pair. intros E N.
  assert (L : forall ts1, map entry_of (match k_private ks with OFile p => [p] | OStdout => [] end) = map Some ts1 -> NoDup (ts1 ++ rest) ->
    achieves (ts1 ++ rest) (let! _ := io_ui (ui_println 0 (lit "    Private key file: " ++ output_path (k_private ks))) in let! wr := open_output entry_of (k_private ks) false in write_text entry_of wr priv) rest).
  { clear E N ts. intros ts E N. eapply achieves_bind; [apply achieves_println|]. intros _. apply achieves_write.
    - intros p Ep. rewrite Ep in E. destruct ts as [|t [|? ?]]; try discriminate E. injection E as E. exists t. split; [exact E|]. split; [reflexivity|]. inversion N; assumption.
    - intros Ep. rewrite Ep in E. destruct ts; [reflexivity|discriminate E]. }
  destruct (k_public ks) as [p|].
  - cbn [app map] in E. destruct ts as [|t ts]; [discriminate E|]. injection E as Et E. cbn [app] in N. inversion N as [|? ? Nt N']; subst.
    eapply achieves_bind; [|intros _; apply L; [exact E|exact N']]. eapply achieves_bind; [apply achieves_println|]. intros _. apply (achieves_write (OFile p)); [|discriminate].
    intros q [= <-]. exists t. auto.
  - eapply achieves_bind; [apply achieves_ret|]. intros _. apply L; assumption.
Qed.
Lemma map_some_app {A} (l1 l2 : list path) (ts : list A) f : map f (l1 ++ l2) = map Some ts -> exists t1 t2, ts = t1 ++ t2 /\ map f l1 = map Some t1 /\ map f l2 = map Some t2.
Proof.
  revert ts. induction l1 as [|x l1 IH]; intros ts E; [exists [], ts; auto|]. destruct ts as [|t ts]; [discriminate E|]. injection E as E1 E.
  destruct (IH ts E) as (t1 & t2 & -> & EA & EB). exists (t :: t1), t2. cbn [map]. rewrite E1, EA. auto.
Qed.
Lemma nodup_right {A} (l1 l2 : list A) : NoDup (l1 ++ l2) -> NoDup l2.
Proof. induction l1; [auto|]. intros H. inversion H. auto. Qed.
Lemma generate_all_achieves {k n} cs streams : crypto_ok cs -> forall ts, map entry_of (flat_map key_files streams) = map Some ts -> NoDup ts ->
  forall w r w', generate_all entry_of sha512 k n cs streams false w r w' -> open_ground ts w -> r = Ok [] /\ open_ground [] w'.
Proof.
  intros Hc. revert k. induction streams as [|ks streams IH]; intros k ts E N w r w' H O; cbn [generate_all] in H.
  { destruct H as [-> ->]. split; [reflexivity|]. destruct O as (A & B & _). split; [exact A|]. split; [exact B|]. intros t []. }
  cbn [flat_map] in E. apply map_some_app in E as (t1 & t2 & -> & E1 & E2).
  destruct H as [([pk sk] & w1 & (-> & seed & Ek) & H)|[(e & (_ & seed & X) & _)|((_ & seed & X) & _)]]; try discriminate X. injection Ek as Ek.
  assert (Kp : exists pub priv, key_pair_texts sha512 pk sk = Ok (pub, priv)).
  { unfold key_pair_texts, assert, bind. pose proof (keypair_layout _ Hc seed) as L. rewrite <- Ek in L. cbn [fst snd] in L. rewrite L.
    destruct (bytes_eqb pk pk) eqn:Eb; [eauto|]. exfalso. assert (bytes_eqb pk pk = true) by (apply bytes_eqb_eq; reflexivity). congruence. }
  destruct Kp as (pub & priv & Kp).
  destruct H as [([pub' priv'] & w1 & [Et ->] & H)|[(e & [X _] & _)|([X _] & _)]]; [|congruence..]. assert (pub' = pub /\ priv' = priv) as [-> ->] by (split; congruence).
  assert (P : forall w t r w', io_ui (ui_println 0 t) w r w' -> open_ground (t1 ++ t2) w -> (exists a, r = Ok a) /\ open_ground (t1 ++ t2) w') by (intros; eapply achieves_println; eassumption).
  destruct H as [(u1 & w1 & H1 & H)|[(e & H1 & _)|(H1 & _)]]; destruct (P _ _ _ _ H1 O) as [[a Ea] O1]; try discriminate Ea. clear H1 Ea O.
  destruct H as [(u2 & w2 & H1 & H)|[(e & H1 & _)|(H1 & _)]]; destruct (P _ _ _ _ H1 O1) as [[b Eb] O2]; try discriminate Eb. clear H1 Eb O1 P.
  pose proof (pair_achieves ks pub priv t1 t2 E1 N) as W.
  destruct H as [(res & w3 & [(x & _ & H1 & Ex)|(_ & Ex)] & H)|[(e & [(x & _ & _ & Ex)|(_ & Ex)] & _)|([(x & _ & _ & Ex)|(H1 & _)] & _)]]; try discriminate Ex;
    destruct (W _ _ _ H1 O2) as [[c Ec] O3]; try discriminate Ec. subst x. injection Ex as ->. clear H1 O2 W.
  destruct H as [(errs & w4 & [Er ->] & H)|[(e & [X _] & _)|([X _] & _)]]; try discriminate X. injection Er as ->.
  destruct H as [(u5 & w5 & H1 & H)|[(e & H1 & _)|(H1 & _)]]; destruct (achieves_println t2 [] _ _ _ H1 O3) as [[d Ed] O4]; try discriminate Ed. clear H1 Ed O3.
  destruct H as [(errs' & w6 & H1 & [-> ->])|[(e & H1 & ->)|(H1 & ->)]]; destruct (IH _ t2 E2 (nodup_right _ _ N) _ _ _ H1 O4) as [X O5]; try discriminate X. injection X as ->. auto.
Qed.
Lemma generate_ready streams w r w' : generate_key_pair_files entry_of lib sha512 streams false w r w' -> lib ChaCha20Poly1305Ietf <> None ->
  works (w_ui w) -> spacious (w_fs w) -> free_names entry_of (w_fs w) (flat_map key_files streams) -> r = Ok tt.
Proof.
  intros H L W S (ts & E & N & F). unfold generate_key_pair_files in H. destruct (lib ChaCha20Poly1305Ietf) as [cs|] eqn:El; [|contradiction L; reflexivity].
  destruct H as [(cs' & w1 & [X ->] & H)|[(e & [X _] & _)|([X _] & _)]]; try discriminate X. injection X as ->.
  assert (O : open_ground ts w) by (split; [exact W|split; [exact S|exact F]]).
  destruct H as [(errs & w1 & H & [-> ->])|[(e & H & ->)|(H & ->)]]; destruct (generate_all_achieves cs streams (Hlib _ _ El) ts E N _ _ _ H O) as [X _]; try discriminate X.
  injection X as ->. reflexivity.
Qed.
End Sound.

(** A file that crashes the program has a line with 128 bytes besides white space and a character in the middle. *)
Lemma map_out_panic {E A B} (f : A -> outcome E B) l : map_out f l = Panic -> exists a, In a l /\ f a = Panic.
Proof.
  induction l as [|x l IH]; [discriminate|]. cbn [map_out]. unfold bind. destruct (f x) eqn:Ex; [|discriminate|intros _; exists x; split; [left; reflexivity|exact Ex]].
  destruct (map_out f l); try discriminate. intros _. destruct (IH eq_refl) as (z & I & Ez). exists z. split; [right; exact I|exact Ez].
Qed.
Lemma private_file_panic sha512 content skip : read_file_lines content (private_key_line sha512 skip) = Panic ->
  exists b t l, content = Some b /\ from_utf8 b = Valid t /\ In l (map trim (lines t)) /\
    lenN (utf8 (remove_whitespace l)) = 128 /\ ~ exists x y, remove_whitespace l = x ++ y /\ lenN (utf8 x) = 64.
Proof.
  unfold read_file_lines. destruct content as [b|]; [|discriminate]. destruct (from_utf8 b) as [t| |] eqn:U; cbn [bind]; try discriminate.
  destruct (map_out _ _) as [r|e|] eqn:M; cbn [bind]; [destruct r; discriminate|discriminate|]. intros _. apply map_out_panic in M as (l & I & P).
  apply filter_In in I as [I _]. exists b, t, l. split; [reflexivity|]. split; [exact U|]. split; [exact I|]. apply (from_hex64_panic sha512 l skip).
  unfold private_key_line in P. destruct (from_hex64_private_key sha512 l skip); [discriminate P..|reflexivity].
Qed.

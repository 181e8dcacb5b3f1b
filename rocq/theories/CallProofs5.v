(** The calls of whole command lines, and single calls in any file system (C66, C67). *)
From Coq.Strings Require Import Byte String.
From Coq Require Import List NArith ZArith Bool PeanoNat Lia.
From Verif Require Import Base BaseFacts Shamir Errors Io HeaderIoSpec StreamSpec Text Util CliErrors Crypto HeaderCrypto FileCrypto CredSpec KeyFiles Ui UiSpec Paths Getopts CliCreds Cli Fs Commands FsSpec ConvProofs FsProofs FsProofs3 FsProofs4 FsProofs10 Program Calls CallSpec CallProofs CallProofs2 CallProofs4.
Import ListNotations.
Local Open Scope N_scope.

Lemma happens_in h b e : happens h b e -> In e h.
Proof. intros [a ->]. apply in_or_app. right. left. reflexivity. Qed.
Lemma happens_split (h h' b : list syscall) e : happens (h ++ h') b e -> happens h b e \/ exists b', b = h ++ b' /\ happens h' b' e.
Proof. intros [a E]. destruct (split_app _ _ _ _ _ E) as [(a' & -> & _)|(b' & -> & ->)]; [left; exists a'; reflexivity|right; exists b'; split; [reflexivity|]; exists a; reflexivity]. Qed.
Lemma happens_cons (x : syscall) h b e : happens (x :: h) b e -> (b = [] /\ e = x) \/ exists b', b = x :: b' /\ happens h b' e.
Proof.
  intros [a E]. destruct b as [|y b]; injection E as -> E; [left; auto|]. right. exists b. split; [reflexivity|]. exists a. exact E.
Qed.

Section Crypt.
Variable lib : crypto_lib.
Hypothesis Hlib : lib_ok lib.
Variables (all : list io_stream) (policy : cleanup_policy) (force : bool) (d : direction_opts).
Variables (u u' : ui) (r : option (outcome cerr unit)) (h : list syscall).
Hypothesis H : crypt_calls lib all policy force d u r h u'.

Lemma last_of {A} (x y : A) l l' : l ++ [x] = l' ++ [y] -> l = l' /\ x = y.
Proof. intros E. apply app_inj_tail, E. Qed.

Lemma converted_strong b p x : happens h b (SRemove p x) -> converted0 lib all force d p b -> was_converted lib all force d p b.
Proof.
  intros [a E] (st & o & rd & wr & src & out & h0 & h1 & I & Ei & R & Ee & C & Eb). exists st, o, rd, wr, src, out, h0, h1. do 6 (split; [assumption|]).
  intros q y Eo Iq. subst o. apply in_split in Iq as (b2 & a2 & E1).
  assert (J : justified lib all policy force d (h0 ++ SConvert d rd wr src out (Some (Ok tt)) :: b2) (SRemove q y)).
  { apply (crypt_justified lib Hlib all policy force d u r h u' H). exists (a2 ++ SRemove p x :: a). rewrite E, Eb, E1. rewrite <- !app_assoc. cbn [app]. rewrite <- app_assoc. reflexivity. }
  destruct J as [(st' & rd' & wr' & src' & out' & e' & new' & g0 & I' & (Eo' & g1 & g2 & g3 & _ & Cr & Eg) & E2)|[(st' & _ & _ & _ & _ & _ & _ & _ & I' & Ei' & _) _]].
  - right. exists wr'. subst g0. destruct b2 as [|z b2 _] using rev_ind.
    { exfalso. change [SConvert d rd' wr' src' out' (Some (Err e')); SUi new'] with ([SConvert d rd' wr' src' out' (Some (Err e'))] ++ [SUi new']) in E2. rewrite app_assoc in E2. apply last_of in E2 as [_ X]. discriminate X. }
    destruct b2 as [|z' b2 _] using rev_ind.
    { exfalso. cbn [app] in E2. change [SConvert d rd wr src out (Some (Ok tt)); z] with ([SConvert d rd wr src out (Some (Ok tt))] ++ [z]) in E2.
      change [SConvert d rd' wr' src' out' (Some (Err e')); SUi new'] with ([SConvert d rd' wr' src' out' (Some (Err e'))] ++ [SUi new']) in E2. rewrite !app_assoc in E2. apply last_of in E2 as [E2 _]. apply last_of in E2 as [_ X]. discriminate X. }
    destruct b2 as [|z2 b2 _] using rev_ind.
    { exfalso. cbn [app] in E2. change [SConvert d rd wr src out (Some (Ok tt)); z'; z] with ([SConvert d rd wr src out (Some (Ok tt))] ++ [z'] ++ [z]) in E2.
      change [SConvert d rd' wr' src' out' (Some (Err e')); SUi new'] with ([SConvert d rd' wr' src' out' (Some (Err e'))] ++ [SUi new']) in E2. rewrite !app_assoc in E2. apply last_of in E2 as [E2 _]. apply last_of in E2 as [E2 _].
      inversion Cr; subst; apply last_of in E2 as [_ X]; discriminate X. }
    change [SConvert d rd' wr' src' out' (Some (Err e')); SUi new'] with ([SConvert d rd' wr' src' out' (Some (Err e'))] ++ [SUi new']) in E2.
    change (SConvert d rd wr src out (Some (Ok tt)) :: ((b2 ++ [z2]) ++ [z']) ++ [z]) with ([SConvert d rd wr src out (Some (Ok tt))] ++ ((b2 ++ [z2]) ++ [z']) ++ [z]) in E2.
    rewrite !app_assoc in E2. apply last_of in E2 as [E2 _]. apply last_of in E2 as [E2 _]. subst h1.
    inversion Cr; subst; apply last_of in E2 as [_ ->]; [left|right]; apply in_or_app; left; apply in_or_app; left; apply in_or_app; left; apply in_or_app; right; left; reflexivity.
  - left. exists st'. auto.
Qed.

Lemma removals_spec b p x : happens h b (SRemove p x) -> has_failed all force d p b \/ (was_converted lib all force d p b /\ removal_requested policy b).
Proof.
  intros K. destruct (crypt_justified lib Hlib all policy force d u r h u' H _ _ K) as [J|[J1 J2]]; [left; exact J|]. right. split; [|exact J2]. eapply converted_strong; eassumption.
Qed.
End Crypt.

(** ** Single calls *)
Section Steps.
Variable entry_of : names.
Definition changes_entry (e : syscall) (f g : fs) (s : N) : Prop :=
  f_entries g s = f_entries f s \/
  (exists q i, e = SCreateNew q (Ok (WriteNode i)) /\ entry_of q = Some s /\ f_entries f s = None /\ unused f i /\ f_entries g s = Some (EFile i)) \/
  (exists q q' i, e = SCreateOrTruncate q (Ok (WriteNode i)) /\ entry_of q = Some q' /\ follow max_links f q' = Some s /\ f_entries f s = None /\ unused f i /\ f_entries g s = Some (EFile i)) \/
  (exists p, e = SRemove p (Ok tt) /\ entry_of p = Some s /\ f_entries f s <> None /\ f_entries g s = None).
Lemma write_out_entries wr out w : f_entries (w_fs (write_out wr out w)) = f_entries (w_fs w).
Proof.
  destruct wr as [i|]; [|reflexivity]. destruct (f_nodes (w_fs w) i) as [n|] eqn:En; [|cbn [write_out]; rewrite En; reflexivity].
  destruct (n_regular n) eqn:Rn; [|cbn [write_out]; rewrite En, Rn; reflexivity]. apply (write_out_fs i out w n En Rn).
Qed.
Lemma write_out_nodes wr out w j : f_nodes (w_fs (write_out wr out w)) j = f_nodes (w_fs w) j \/ wr = WriteNode j.
Proof.
  destruct wr as [i|]; [|left; reflexivity]. destruct (f_nodes (w_fs w) i) as [n|] eqn:En; [|left; cbn [write_out]; rewrite En; reflexivity].
  destruct (n_regular n) eqn:Rn; [|left; cbn [write_out]; rewrite En, Rn; reflexivity]. rewrite (proj2 (write_out_fs i out w n En Rn) j).
  destruct (N.eqb_spec j i) as [->|]; [right; reflexivity|left; reflexivity].
Qed.
Lemma set_content_entries f i b : f_entries (set_content f i b) = f_entries f.
Proof. unfold set_content. destruct (f_nodes f i); reflexivity. Qed.
Lemma step_entries e w w' s : takes entry_of e w w' -> changes_entry e (w_fs w) (w_fs w') s.
Proof.
  intros T. destruct e as [p r|p r|p r|p r|p r|src|d rd wr src out r|wr t out r|pair|out r|new]; cbn [takes] in T.
  - destruct T as [-> _]. left. reflexivity.
  - destruct T as [-> _]. left. reflexivity.
  - destruct T as [(_ & -> & _)|(s0 & i & E & N & U & -> & ->)]; [left; reflexivity|]. cbn [set_fs w_fs add_file f_entries]. unfold changes_entry, update. cbn [f_entries add_file]. unfold update.
    destruct (N.eqb_spec s s0) as [->|]; [|left; reflexivity]. right. left. exists p, i. auto.
  - destruct T as [(_ & -> & _)|(s0 & t & i & E & F & -> & [(N & U & ->)|(n & A & B & ->)])]; [left; reflexivity| |].
    + unfold changes_entry. cbn [set_fs w_fs add_file f_entries]. unfold update. destruct (N.eqb_spec s t) as [->|]; [|left; reflexivity]. right. right. left. exists p, s0, i. auto 10.
    + left. destruct (n_regular n); [|reflexivity]. cbn [set_fs w_fs]. rewrite set_content_entries. reflexivity.
  - unfold remove_file in T. destruct (entry_of p) as [s0|] eqn:E; [|destruct T as [_ ->]; left; reflexivity].
    assert (K : (r = Ok tt /\ w' = set_fs w (unlink (w_fs w) s0) /\ f_entries (w_fs w) s0 <> None) \/ w_fs w' = w_fs w).
    { destruct (f_entries (w_fs w) s0) as [[i|l|]|] eqn:Ee; [| |destruct T as [_ ->]; right; reflexivity|destruct T as [_ ->]; right; reflexivity]; (destruct T as [(_ & _ & ->)|(-> & ->)]; [right; reflexivity|left; split; [reflexivity|split; [reflexivity|discriminate]]]). }
    destruct K as [(-> & -> & Ne)|K]; [|left; rewrite K; reflexivity]. unfold changes_entry. cbn [set_fs w_fs unlink f_entries]. unfold update. destruct (N.eqb_spec s s0) as [->|]; [|left; reflexivity].
    right. right. right. exists p. auto.
  - unfold open_stdin in T. destruct (u_input (w_ui w)); destruct T as [_ ->]; left; reflexivity.
  - destruct T as [_ [lines ->]]. left. cbn [set_ui w_fs]. rewrite write_out_entries. reflexivity.
  - subst w'. left. rewrite write_out_entries. reflexivity.
  - subst w'. left. reflexivity.
  - subst w'. left. reflexivity.
  - destruct T as (u & -> & _). left. reflexivity.
Qed.
Definition changes_node (e : syscall) (f g : fs) (i : N) : Prop :=
  f_nodes g i = f_nodes f i \/
  (exists q, e = SCreateNew q (Ok (WriteNode i)) /\ unused f i) \/
  (exists q, e = SCreateOrTruncate q (Ok (WriteNode i))) \/
  (exists d rd src out r, e = SConvert d rd (WriteNode i) src out r) \/
  (exists t out r, e = SWriteText (WriteNode i) t out r) \/
  (exists p s, e = SRemove p (Ok tt) /\ entry_of p = Some s /\ f_entries f s = Some (EFile i) /\
     forall n n', f_nodes f i = Some n -> f_nodes g i = Some n' -> n_content n' = n_content n).
Lemma step_nodes e w w' i : takes entry_of e w w' -> changes_node e (w_fs w) (w_fs w') i.
Proof.
  intros T. destruct e as [p r|p r|p r|p r|p r|src|d rd wr src out r|wr t out r|pair|out r|new]; cbn [takes] in T.
  - destruct T as [-> _]. left. reflexivity.
  - destruct T as [-> _]. left. reflexivity.
  - destruct T as [(_ & -> & _)|(s0 & j & E & N & U & -> & ->)]; [left; reflexivity|]. unfold changes_node. cbn [set_fs w_fs add_file f_nodes]. unfold update.
    destruct (N.eqb_spec i j) as [->|]; [|left; reflexivity]. right. left. exists p. auto.
  - destruct T as [(_ & -> & _)|(s0 & t & j & E & F & -> & [(N & U & ->)|(n & A & B & ->)])]; [left; reflexivity| |].
    + unfold changes_node. cbn [set_fs w_fs add_file f_nodes]. unfold update. destruct (N.eqb_spec i j) as [->|]; [|left; reflexivity]. right. right. left. exists p. reflexivity.
    + destruct (n_regular n); [|left; reflexivity]. unfold changes_node. cbn [set_fs w_fs]. unfold set_content. rewrite B. cbn [f_nodes]. unfold update.
      destruct (N.eqb_spec i j) as [->|]; [|left; reflexivity]. right. right. left. exists p. reflexivity.
  - unfold remove_file in T. destruct (entry_of p) as [s0|] eqn:E; [|destruct T as [_ ->]; left; reflexivity].
    assert (K : (r = Ok tt /\ w' = set_fs w (unlink (w_fs w) s0)) \/ w_fs w' = w_fs w).
    { destruct (f_entries (w_fs w) s0) as [[k|l|]|] eqn:Ee; [| |destruct T as [_ ->]; right; reflexivity|destruct T as [_ ->]; right; reflexivity]; (destruct T as [(_ & _ & ->)|(-> & ->)]; [right; reflexivity|left; split; reflexivity]). }
    destruct K as [(-> & ->)|K]; [|left; rewrite K; reflexivity]. unfold changes_node. cbn [set_fs w_fs]. unfold unlink. cbn [f_nodes].
    destruct (f_entries (w_fs w) s0) as [[k|l|]|] eqn:Ee; try (left; reflexivity). destruct (f_nodes (w_fs w) k) as [n|] eqn:En; [|left; reflexivity]. unfold update.
    destruct (N.eqb_spec i k) as [->|]; [|left; reflexivity]. do 5 right. exists p, s0. split; [reflexivity|]. split; [exact E|]. split; [exact Ee|]. intros n0 n' E0 E1. rewrite En in E0. injection E0 as <-. destruct (n_links n <=? 1); [discriminate E1|]. injection E1 as <-. reflexivity.
  - unfold open_stdin in T. destruct (u_input (w_ui w)); destruct T as [_ ->]; left; reflexivity.
  - destruct T as [_ [lines ->]]. unfold changes_node. cbn [set_ui w_fs]. destruct (write_out_nodes wr out w i) as [K|K]; [left; exact K|]. subst wr. right. right. right. left. do 5 eexists. reflexivity.
  - subst w'. destruct (write_out_nodes wr out w i) as [K|K]; [left; exact K|]. subst wr. do 4 right. left. do 3 eexists. reflexivity.
  - subst w'. left. reflexivity.
  - subst w'. left. reflexivity.
  - destruct T as (u & -> & _). left. reflexivity.
Qed.
End Steps.

(** ** Whole command lines *)
Section Main.
Variable lib : crypto_lib.
Variable sha512 : bytes -> bytes.
Variable files : text -> option bytes.
Lemma main_inv args tin tout terr u r h u' : main_calls lib sha512 files args tin tout terr u r h u' ->
  exists new h', h = SUi new :: h' /\
    (h' = [] \/ exists c u1, parse_command_line sha512 files args tin tout terr u = (Ok c, u1) /\ run_command_p trace (any_os lib) lib sha512 c u1 r h' u').
Proof.
  intros [(c & h1 & u1 & h2 & (-> & [(-> & E)|(new & _ & _ & X)]) & H & ->)|[(e & (_ & [(-> & _)|(new & _ & -> & _)]) & _)|[((_ & [(-> & _)|(new & _ & -> & _)]) & _)|((_ & [(-> & _)|(new & _ & -> & _)]) & _)]]];
    try discriminate X; (eexists; eexists; split; [reflexivity|]); [|left; reflexivity..].
  right. exists c. destruct (parse_command_line sha512 files args tin tout terr u) as [x v]. cbn [fst snd] in *. injection E as <-. exists v. split; [reflexivity|exact H].
Qed.
Lemma print_inv u r h u' : t_print_text u r h u' -> exists out x, h = [SStdout out x].
Proof. intros (_ & out & x & _ & -> & _). eauto. Qed.
End Main.

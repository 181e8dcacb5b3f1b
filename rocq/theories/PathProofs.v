(** Proofs about file names, modes and terminals (C33, C34, C35, C53). *)
From Coq.Strings Require Import Byte String.
From Coq Require Import List NArith ZArith Bool PeanoNat Lia.
From Verif Require Import Base BaseFacts Text Util UtilProofs UiProofs2 CliErrors Getopts Crypto HeaderCrypto CredSpec KeyFiles Ui CliCreds CliSpec CliProofs CliProofs3 Paths Cli PathSpec.
Import ListNotations.
Local Open Scope N_scope.

(** ** Names *)

Lemma text_eqb_eq a : forall b, text_eqb a b = true <-> a = b.
Proof.
  intros b. split; [|intros <-; apply text_eqb_refl]. intros H. destruct (list_eq_dec N.eq_dec a b) as [E|D]; [exact E|]. exfalso.
  apply text_eqb_neq in D. congruence.
Qed.

Lemma split_last_app p : forall d l, split_last p = Some (d, l) <-> p = d ++ [l].
Proof.
  induction p as [|c p IH]; intros d l; cbn [split_last].
  - split; [discriminate|]. intros E. destruct d; discriminate E.
  - destruct (split_last p) as [[d' l']|] eqn:E.
    + pose proof (proj1 (IH d' l') eq_refl) as Ep. subst p. split.
      * intros [= <- <-]. reflexivity.
      * intros E2. destruct d as [|x d]; [cbn in E2; injection E2 as _ E2; destruct d'; discriminate E2|]. cbn in E2. injection E2 as -> E2.
        apply app_inj_tail in E2 as [-> ->]. reflexivity.
    + destruct p as [|c' p]; [|cbn in E; destruct (split_last p) as [[? ?]|]; discriminate E].
      split; [intros [= <- <-]; reflexivity|]. intros E2. destruct d as [|x [|y d]]; cbn in E2; try discriminate E2. injection E2 as ->. reflexivity.
Qed.
Lemma file_name_iff p d n : file_name p = Some (d, n) <-> is_file p d n.
Proof.
  unfold file_name, is_file. rewrite <- split_last_app. destruct (split_last p) as [[d' [| | |n']]|]; split; intros H; try discriminate H; injection H as <- <-; reflexivity.
Qed.

Lemma rsplit_some n : forall a b, rsplit_dot n = (Some a, b) <-> n = a ++ 46 :: b /\ ~ In 46 b.
Proof.
  induction n as [|c n IH]; intros a b; cbn [rsplit_dot].
  - split; [discriminate|]. intros [E _]. destruct a; discriminate E.
  - destruct (rsplit_dot n) as [[b'|] a'] eqn:E.
    + destruct (proj1 (IH b' a') eq_refl) as [En Na]. split.
      * intros [= <- <-]. split; [rewrite En; reflexivity|exact Na].
      * intros [E2 N2]. destruct a as [|x a]; cbn in E2; injection E2 as -> E2.
        -- exfalso. apply N2. rewrite <- E2, En. apply in_or_app. right. left. reflexivity.
        -- pose proof (proj2 (IH a b) (conj E2 N2)) as X. congruence.
    + assert (n = a' /\ ~ In 46 n) as [<- Nn].
      { clear - E. revert a' E. induction n as [|x n IHn]; cbn [rsplit_dot]; intros a' E; [injection E as <-; auto|].
        destruct (rsplit_dot n) as [[b|] a]; [discriminate E|]. destruct (N.eqb_spec x 46) as [|D]; [discriminate E|]. injection E as <-.
        destruct (IHn a eq_refl) as [-> N]. split; [reflexivity|]. intros [Ex|Ix]; [exact (D Ex)|exact (N Ix)]. }
      destruct (N.eqb_spec c 46) as [->|D]; split.
      * intros [= <- <-]. auto.
      * intros [E2 N2]. destruct a as [|x a]; cbn in E2; [injection E2 as ->; reflexivity|]. injection E2 as E1 E2. exfalso. apply Nn. rewrite E2. apply in_or_app. right. left. reflexivity.
      * discriminate.
      * intros [E2 N2]. destruct a as [|x a]; cbn in E2; injection E2 as E1 E2; [subst; contradiction|]. exfalso. apply Nn. rewrite E2. apply in_or_app. right. left. reflexivity.
Qed.
Lemma rsplit_none n a : rsplit_dot n = (None, a) -> a = n /\ ~ In 46 n.
Proof.
  revert a. induction n as [|x n IHn]; cbn [rsplit_dot]; intros a' E; [injection E as <-; auto|].
  destruct (rsplit_dot n) as [[b|] a]; [discriminate E|]. destruct (N.eqb_spec x 46) as [|D]; [discriminate E|]. injection E as <-.
  destruct (IHn a eq_refl) as [-> N]. split; [reflexivity|]. intros [Ex|Ix]; [exact (D Ex)|exact (N Ix)].
Qed.

(** The two cases of an extension. *)
Lemma stem_cases n :
  (stem_and_extension n = (n, None) /\ ~ has_inner_dot n) \/
  (exists a b, a <> [] /\ ~ In 46 b /\ n = a ++ 46 :: b /\ stem_and_extension n = (a, Some b)).
Proof.
  unfold stem_and_extension. destruct (rsplit_dot n) as [[[|x a]|] b] eqn:E.
  - left. split; [reflexivity|]. apply rsplit_some in E as [-> N]. intros (u & v & Nu & E). destruct u as [|y u]; [contradiction|]. cbn in E.
    injection E as _ E. apply N. rewrite E. apply in_or_app. right. left. reflexivity.
  - right. apply rsplit_some in E as [-> N]. exists (x :: a), b. repeat split; [discriminate|exact N].
  - left. split; [reflexivity|]. apply rsplit_none in E as [_ N]. intros (u & v & Nu & E). apply N. rewrite E. apply in_or_app. right. left. reflexivity.
Qed.
Lemma stem_app a b : a <> [] -> ~ In 46 b -> stem_and_extension (a ++ 46 :: b) = (a, Some b).
Proof.
  intros Na Nb. unfold stem_and_extension. rewrite (proj2 (rsplit_some _ a b) (conj eq_refl Nb)). destruct a; [contradiction|reflexivity].
Qed.

Lemma split_slash_plain w : ~ In 47 w -> split_slash w = [w].
Proof.
  induction w as [|c w IH]; intros N; [reflexivity|]. cbn [split_slash]. destruct (N.eqb_spec c 47) as [->|D]; [contradiction N; left; reflexivity|].
  rewrite IH; [reflexivity|]. intros I. apply N. right. exact I.
Qed.
Lemma piece_name w : name_ok w -> piece w = [Normal w].
Proof.
  intros (A & B & C & _). destruct w as [|c w]; [contradiction|]. unfold piece.
  destruct (N.eq_dec c 46) as [->|D].
  - destruct w as [|c2 w]; [contradiction|]. destruct (N.eq_dec c2 46) as [->|D2].
    + destruct w; [contradiction|reflexivity].
    + destruct c2 as [|p]; [reflexivity|]. do 6 (destruct p as [p|p|]; try reflexivity). contradiction D2; reflexivity.
  - destruct c as [|p]; [reflexivity|]. do 6 (destruct p as [p|p|]; try reflexivity). contradiction D; reflexivity.
Qed.
Lemma match47 {A} c w (x : text -> A) (y : A) : c <> 47 -> (match c :: w with 47 :: r => x r | _ => y end) = y.
Proof. intros H. destruct c as [|p]; [reflexivity|]. do 6 (destruct p as [p|p|]; try reflexivity). contradiction H; reflexivity. Qed.
Lemma components_name w : name_ok w -> components w = [Normal w].
Proof.
  intros O. pose proof (piece_name w O) as P. destruct O as (A & B & C & D). unfold components. rewrite split_slash_plain by exact D.
  destruct w as [|c w]; [contradiction|]. rewrite (match47 c w (fun _ => RootDir :: flat_map piece [c :: w])) by (intros ->; apply D; left; reflexivity).
  destruct (N.eq_dec c 46) as [->|N].
  - destruct w as [|c2 w]; [contradiction|]. cbn [flat_map]. rewrite P. reflexivity.
  - transitivity (flat_map piece [c :: w]); [|cbn [flat_map]; rewrite P; reflexivity].
    destruct c as [|p]; [reflexivity|]. do 6 (destruct p as [p|p|]; try reflexivity). contradiction N; reflexivity.
Qed.
Lemma push_name d w : name_ok w -> push d w = d ++ [Normal w].
Proof.
  intros O. unfold push. destruct d as [|c d]; [apply components_name, O|]. pose proof (piece_name w O) as P. destruct O as (_ & _ & _ & D).
  rewrite split_slash_plain by exact D. cbn [flat_map]. rewrite P. reflexivity.
Qed.

Lemma split_slash_no_slash t : Forall (fun w => ~ In 47 w) (split_slash t).
Proof.
  induction t as [|c t IH]; cbn [split_slash]; [constructor; [intros []|constructor]|].
  destruct (N.eqb_spec c 47) as [->|D]; [constructor; [intros []|exact IH]|].
  destruct (split_slash t) as [|w ws]; [constructor; [intros [E|[]]; exact (D E)|constructor]|]. inversion IH as [|? ? Nw F]; subst.
  constructor; [intros [E|I]; [exact (D E)|exact (Nw I)]|exact F].
Qed.
Definition path_ok (p : path) : Prop := Forall (fun c => match c with Normal n => name_ok n | _ => True end) p.
Lemma piece_ok w : ~ In 47 w -> path_ok (piece w).
Proof.
  intros N. assert (name_ok w \/ piece w = [] \/ piece w = [ParentDir]) as [O|[->| ->]]; [|rewrite (piece_name w O)| |]; try (repeat constructor; assumption || apply O).
  destruct w as [|c w]; [right; left; reflexivity|].
  destruct (list_eq_dec N.eq_dec (c :: w) [46]) as [->|A]; [right; left; reflexivity|].
  destruct (list_eq_dec N.eq_dec (c :: w) [46; 46]) as [->|B]; [right; right; reflexivity|]. left. repeat split; try assumption. discriminate.
Qed.
Lemma pieces_ok ws : Forall (fun w => ~ In 47 w) ws -> path_ok (flat_map piece ws).
Proof. induction 1 as [|w ws N F IH]; [constructor|]. cbn [flat_map]. apply Forall_app. split; [apply piece_ok, N|exact IH]. Qed.
(** Paths from the command line have proper file names. *)
Lemma components_ok t : path_ok (components t).
Proof.
  pose proof (split_slash_no_slash t) as F.
  assert (components t = flat_map piece (split_slash t) \/ components t = RootDir :: flat_map piece (split_slash t) \/
          exists w ws, split_slash t = w :: ws /\ components t = CurDir :: flat_map piece ws) as [->|[->|(w & ws & E & ->)]].
  { unfold components. destruct t as [|c t]; [left; reflexivity|].
    destruct (N.eq_dec c 47) as [->|D]; [right; left; reflexivity|].
    destruct (split_slash (c :: t)) as [|w ws] eqn:Es.
    - left. destruct c as [|p]; [reflexivity|]. do 6 (destruct p as [p|p|]; try reflexivity). contradiction D; reflexivity.
    - destruct (list_eq_dec N.eq_dec w [46]) as [->|Dw].
      + right; right. exists [46], ws. split; [reflexivity|]. destruct c as [|p]; [reflexivity|]. do 6 (destruct p as [p|p|]; try reflexivity). contradiction D; reflexivity.
      + left. transitivity (match w :: ws with [46] :: ws0 => CurDir :: flat_map piece ws0 | ws0 => flat_map piece ws0 end).
        * destruct c as [|p]; [reflexivity|]. do 6 (destruct p as [p|p|]; try reflexivity). contradiction D; reflexivity.
        * destruct w as [|x w]; [reflexivity|]. destruct (N.eq_dec x 46) as [->|Dx].
          -- destruct w as [|y w]; [contradiction|reflexivity].
          -- destruct x as [|p]; [reflexivity|]. do 6 (destruct p as [p|p|]; try reflexivity). contradiction Dx; reflexivity. }
  - apply pieces_ok, F.
  - constructor; [exact I|]. apply pieces_ok, F.
  - rewrite E in F. inversion F; subst. constructor; [exact I|]. apply pieces_ok. assumption.
Qed.
Lemma path_ok_name p d n : path_ok p -> is_file p d n -> name_ok n.
Proof. unfold is_file. intros O ->. apply Forall_app in O as [_ O]. inversion O; subst. assumption. Qed.

Lemma not_ends_in_dot a b : ~ ends_in_dot (a ++ 46 :: b) -> b <> [].
Proof. intros N ->. apply N. exists a. reflexivity. Qed.

(** The name of the encrypted file. *)
Lemma add_extension_name d n s force q :
  name_ok n -> ~ ends_in_dot n -> ~ In 47 s -> s <> [] \/ has_inner_dot n ->
  add_extension (d ++ [Normal n]) s force = Ok q -> q = d ++ [Normal (n ++ 46 :: s)].
Proof.
  intros O Nd Ns Hs H. unfold add_extension, extension in H. rewrite (proj2 (file_name_iff (d ++ [Normal n]) d n) eq_refl) in H.
  unfold bind, ensure in H. destruct (force || _); [|discriminate H]. injection H as <-.
  unfold with_extension. rewrite (proj2 (file_name_iff (d ++ [Normal n]) d n) eq_refl).
  assert (name_ok (n ++ 46 :: s)) as Oq.
  { destruct O as (A & B & C & D). repeat split.
    - destruct n; discriminate.
    - destruct n as [|x [|y n]]; [contradiction|discriminate|discriminate].
    - destruct n as [|x [|y n]]; [contradiction| |destruct n; discriminate]. intros [= -> _]. contradiction B; reflexivity.
    - intros I. apply in_app_or in I as [I|[I|I]]; [exact (D I)|discriminate I|exact (Ns I)]. }
  rewrite <- (push_name d _ Oq). destruct (stem_cases n) as [[E Nh]|(a & b & Na & Nb & En & E)]; rewrite E; cbn [fst snd].
  - destruct Hs as [Hs|Hs]; [|contradiction]. cbn [app]. destruct s; [contradiction|reflexivity].
  - subst n. apply not_ends_in_dot in Nd. destruct b as [|y b]; [contradiction|]. rewrite <- !app_assoc. reflexivity.
Qed.
Lemma add_extension_refuses d n s : name_ok n -> add_extension (d ++ [Normal n]) s false = Err CHasExtension \/
  exists q, add_extension (d ++ [Normal n]) s false = Ok q.
Proof. intros _. unfold add_extension, bind, ensure. destruct (false || _); eauto. Qed.

(** The name of the decrypted file. *)
Lemma remove_extension_inv p s q : remove_extension p s = Ok q ->
  exists d b, is_file p d (b ++ 46 :: s) /\ b <> [] /\ ~ In 46 s /\ q = push d b.
Proof.
  unfold remove_extension, extension, with_extension, bind, ensure. destruct (file_name p) as [[d n]|] eqn:E; [|discriminate].
  apply file_name_iff in E. destruct (stem_cases n) as [[En _]|(a & b & Na & Nb & -> & En)]; rewrite En; cbn [fst snd]; [discriminate|].
  destruct (text_eqb b s) eqn:Eb; [|discriminate]. apply text_eqb_eq in Eb as ->. intros [= <-]. exists d, a. auto.
Qed.
Lemma remove_extension_run d b s : b <> [] -> ~ In 46 s -> remove_extension (d ++ [Normal (b ++ 46 :: s)]) s = Ok (push d b).
Proof.
  intros Nb Ns. unfold remove_extension, extension, with_extension.
  rewrite (proj2 (file_name_iff (d ++ [Normal (b ++ 46 :: s)]) d _) eq_refl), stem_app by assumption.
  cbn [fst snd]. rewrite text_eqb_refl. reflexivity.
Qed.

(** Streams of the file mode. *)
Lemma streams_inv m d force ss s : get_input_output_streams m d force = Ok ss -> In s ss ->
  (exists p, s_input s = IFile p /\ path_ok p /\
    s_output s = (let* q := match d with
       | Encrypt => add_extension p (get_encrypted_file_extension m) force
       | Decrypt => remove_extension p (get_encrypted_file_extension m) end in Ok (OFile q))) \/
  (ss = [s] /\ s_output s = Ok OStdout /\ (s_input s = IStdin \/ exists p, s_input s = IFileStream p)).
Proof.
  intros H Is. unfold get_input_output_streams in H.
  destruct (opt_present m OStream || _).
  - right. destruct (m_free m) as [|a [|b l]].
    + injection H as <-. destruct Is as [<-|[]]. auto.
    + injection H as <-. destruct Is as [<-|[]]. split; [reflexivity|]. split; [reflexivity|]. cbn [s_input]. destruct (text_eqb a dash); eauto.
    + discriminate H.
  - left. unfold bind at 1, ensure in H. destruct (negb _); [|discriminate H]. injection H as <-.
    apply in_map_iff in Is as (a & <- & _). exists (components a). split; [reflexivity|]. split; [apply components_ok|]. reflexivity.
Qed.
Lemma file_stream m d force ss p q : get_input_output_streams m d force = Ok ss -> In (mkStream (IFile p) (Ok (OFile q))) ss ->
  path_ok p /\ match d with
       | Encrypt => add_extension p (get_encrypted_file_extension m) force
       | Decrypt => remove_extension p (get_encrypted_file_extension m) end = Ok q.
Proof.
  intros H I. destruct (streams_inv _ _ _ _ _ H I) as [(p' & E1 & O & E2)|(_ & E & _)]; [|discriminate E].
  cbn [s_input s_output] in *. injection E1 as <-. split; [exact O|]. unfold bind in E2.
  destruct (match d with Encrypt => _ | Decrypt => _ end); try discriminate E2. injection E2 as ->. reflexivity.
Qed.

(** ** Modes *)

Lemma max_by_pos_spec {A} (l : list (nat * A)) : forall b,
  match max_by_pos b l with
  | Some x => (b = Some x \/ In x l) /\ (forall y, b = Some y \/ In y l -> (fst y <= fst x)%nat)
  | None => b = None /\ l = []
  end.
Proof.
  induction l as [|x l IH]; intros b; cbn [max_by_pos].
  - destruct b as [x|]; [|auto]. split; [left; reflexivity|]. intros y [[= ->]|[]]. lia.
  - match goal with |- context [max_by_pos (Some ?z) l] => set (w := z); specialize (IH (Some w)) end.
    assert (Hw : (b = Some w \/ x = w) /\ (fst x <= fst w)%nat /\ forall y, b = Some y -> (fst y <= fst w)%nat).
    { subst w. destruct b as [y|]; [|repeat split; [right; reflexivity|lia|discriminate]].
      destruct (Nat.ltb_spec (fst x) (fst y)); repeat split; auto; try lia; intros z [= ->]; lia. }
    destruct Hw as (W1 & W2 & W3). destruct (max_by_pos (Some w) l) as [z|]; [|destruct IH as [IH _]; discriminate IH].
    destruct IH as [IH1 IH2]. pose proof (IH2 w (or_introl eq_refl)) as Lw. split.
    + destruct IH1 as [[= <-]|Iz]; [destruct W1 as [W1|W1]; [left; exact W1|right; left; exact W1]|right; right; exact Iz].
    + intros y [E|[E|Iy]]; [specialize (W3 y E); lia|subst y; lia|]. apply IH2. right. exact Iy.
Qed.

Definition mode_list (m : opt_matches) : list (nat * operation_mode) :=
  flat_map (fun '(o, mode) => map (fun pos => (pos, mode)) (opt_positions m o)) MODES.
Lemma mode_list_in m pos mode : In (pos, mode) (mode_list m) <-> exists x, In x (m_occs m) /\ o_pos x = pos /\ mode_of (o_opt x) = Some mode.
Proof.
  unfold mode_list. rewrite in_flat_map. split.
  - intros ([o md] & Io & Ip). apply in_map_iff in Ip as (p & E & Ip). injection E as -> ->. unfold opt_positions in Ip. apply in_map_iff in Ip as (x & Ex & Ix).
    apply filter_In in Ix as [Ix Eo]. apply opt_eqb_eq in Eo. exists x. split; [exact Ix|]. split; [exact Ex|]. rewrite Eo.
    destruct Io as [E|[E|[E|[E|[E|[]]]]]]; injection E as <- <-; reflexivity.
  - intros (x & Ix & <- & Em). exists (o_opt x, mode). split.
    + destruct (o_opt x); try discriminate Em; injection Em as <-; cbn; auto 10.
    + apply in_map_iff. exists (o_pos x). split; [reflexivity|]. apply in_map_iff. exists x. split; [reflexivity|]. apply filter_In. split; [exact Ix|apply opt_eqb_eq; reflexivity].
Qed.

Lemma get_mode_none m : (forall x, In x (m_occs m) -> mode_of (o_opt x) = None) -> get_mode m = MCrypt Encrypt.
Proof.
  intros H. unfold get_mode. fold (mode_list m). pose proof (max_by_pos_spec (mode_list m) None) as S. destruct (max_by_pos None (mode_list m)) as [[p md]|]; [|reflexivity].
  destruct S as [[E|I] _]; [discriminate E|]. apply mode_list_in in I as (x & Ix & _ & E). rewrite H in E by exact Ix. discriminate E.
Qed.
Lemma get_mode_last m x mode : In x (m_occs m) -> mode_of (o_opt x) = Some mode ->
  (forall y, In y (m_occs m) -> mode_of (o_opt y) <> None -> y = x \/ (o_pos y < o_pos x)%nat) -> get_mode m = mode.
Proof.
  intros Ix Em L. unfold get_mode. fold (mode_list m). pose proof (max_by_pos_spec (mode_list m) None) as S.
  assert (In (o_pos x, mode) (mode_list m)) as I0 by (apply mode_list_in; eauto).
  destruct (max_by_pos None (mode_list m)) as [[p md]|]; [|destruct S as [_ S]; rewrite S in I0; destruct I0].
  destruct S as [[E|I] G]; [discriminate E|]. apply mode_list_in in I as (y & Iy & Ey & Eymd).
  specialize (G _ (or_intror I0)). cbn [fst] in G. destruct (L y Iy) as [->|Lt]; [congruence| |lia]. congruence.
Qed.

Lemma spelled_step pos o v arg args m : spelled o v arg -> parse_args pos (arg ++ args) = Ok m ->
  exists m', parse_args (S pos) args = Ok m' /\ m_occs m = mkOcc pos o v :: m_occs m'.
Proof.
  intros Sp H.
  assert (forall o c, short o = Some c -> c <> 45) as Nd by (intros o' c E ->; destruct o'; discriminate E).
  destruct Sp as [o c Hv Hs|o Hv|o c v Hv Hs|o c v Hv Hs Nv|o v Hv|o v Hv]; cbn [app] in H.
  - rewrite args_short in H by (eapply Nd; exact Hs). cbn [cluster] in H. rewrite (find_short_complete _ _ Hs), Hv in H. cbn in H.
    apply add_occs_inv in H as (m' & H & ->). eauto.
  - rewrite args_long in H by apply long_not_nil. rewrite split_long_only, find_long_complete, Hv in H. apply add_occs_inv in H as (m' & H & ->). eauto.
  - rewrite args_short in H by (eapply Nd; exact Hs). cbn [cluster] in H. rewrite (find_short_complete _ _ Hs), Hv in H. cbn in H.
    apply add_occs_inv in H as (m' & H & ->). eauto.
  - rewrite args_short in H by (eapply Nd; exact Hs). cbn [cluster] in H. rewrite (find_short_complete _ _ Hs), Hv in H. cbn in H.
    destruct v as [|v0 v]; [contradiction|]. apply add_occs_inv in H as (m' & H & ->). eauto.
  - rewrite args_long in H by apply long_not_nil. rewrite split_long_only, find_long_complete, Hv in H. apply add_occs_inv in H as (m' & H & ->). eauto.
  - rewrite args_long in H by (destruct (long o); discriminate). rewrite split_long, find_long_complete, Hv in H. apply add_occs_inv in H as (m' & H & ->). eauto.
Qed.

(** The occurrences are the options listed, at increasing positions. *)
Lemma lists_occs args os : lists args os -> forall pos m, parse_args pos args = Ok m ->
  map (fun x => (o_opt x, o_val x)) (m_occs m) = os /\ Forall (fun x => (pos <= o_pos x)%nat) (m_occs m) /\ ForallOrdPairs (fun x y => (o_pos x < o_pos y)%nat) (m_occs m).
Proof.
  induction 1 as [|o v arg args os Sp L IH|a args os Ff L IH|args]; intros pos m H.
  - injection H as <-. repeat constructor.
  - destruct (spelled_step _ _ _ _ _ _ Sp H) as (m' & H' & E). destruct (IH _ _ H') as (F & Fl & N). rewrite E. cbn [map o_opt o_val].
    split; [f_equal; exact F|]. split; [constructor; [apply Nat.le_refl|]; eapply Forall_impl; [|exact Fl]; cbn; lia|]. constructor; [|exact N].
    eapply Forall_impl; [|exact Fl]. cbn. lia.
  - rewrite args_free in H by exact Ff. unfold bind in H. destruct (parse_args (S pos) args) as [m'| |] eqn:E; try discriminate H. injection H as <-.
    destruct (IH _ _ E) as (F & Fl & N). cbn [m_occs]. split; [exact F|]. split; [|exact N]. eapply Forall_impl; [|exact Fl]. cbn. lia.
  - injection H as <-. repeat constructor.
Qed.

Lemma last_mode_spec occs : ForallOrdPairs (fun x y => (o_pos x < o_pos y)%nat) occs ->
  forall init, (exists x mode, In x occs /\ mode_of (o_opt x) = Some mode /\
    (forall y, In y occs -> mode_of (o_opt y) <> None -> y = x \/ (o_pos y < o_pos x)%nat) /\
    fold_left (fun mode o => match mode_of o with Some mode => mode | None => mode end) (map o_opt occs) init = mode) \/
  (forall x, In x occs -> mode_of (o_opt x) = None) /\
    fold_left (fun mode o => match mode_of o with Some mode => mode | None => mode end) (map o_opt occs) init = init.
Proof.
  induction 1 as [|x occs F O IH]; intros init; [right; split; [intros x []|reflexivity]|]. cbn [map fold_left].
  rewrite Forall_forall in F.
  destruct (mode_of (o_opt x)) as [mode|] eqn:E.
  - left. destruct (IH mode) as [(y & md & Iy & Em & L & Ef)|[N Ef]].
    + exists y, md. split; [right; exact Iy|]. split; [exact Em|]. split; [|exact Ef]. intros z [<-|Iz] Nz; [right; apply F, Iy|apply L; assumption].
    + exists x, mode. split; [left; reflexivity|]. split; [exact E|]. split; [|exact Ef]. intros z [<-|Iz] Nz; [left; reflexivity|]. exfalso. apply Nz, N, Iz.
  - destruct (IH init) as [(y & md & Iy & Em & L & Ef)|[N Ef]].
    + left. exists y, md. split; [right; exact Iy|]. split; [exact Em|]. split; [|exact Ef]. intros z [<-|Iz] Nz; [contradiction|apply L; assumption].
    + right. split; [|exact Ef]. intros z [<-|Iz]; [exact E|apply N, Iz].
Qed.

Lemma get_mode_lists args os m : lists args os -> parse_options args = Ok m -> get_mode m = last_mode (map fst os).
Proof.
  intros L P. apply parse_options_args in P. destruct (lists_occs _ _ L _ _ P) as (<- & _ & O). rewrite map_map. cbn [fst].
  change (map (fun x => o_opt x) (m_occs m)) with (map o_opt (m_occs m)). unfold last_mode.
  destruct (last_mode_spec _ O (MCrypt Encrypt)) as [(x & md & Ix & Em & Lx & ->)|[N ->]]; [eapply get_mode_last; eassumption|apply get_mode_none, N].
Qed.

(** ** The whole command line *)

Section WithEnvironment.
Variable sha512 : bytes -> bytes.
Variable files : text -> option bytes.
Notation parse_command_line := (parse_command_line sha512 files).

(** What an accepted command line has been through. *)
Lemma command_line_inv args tin tout terr u c u' : parse_command_line args tin tout terr u = (Ok c, u') ->
  exists m, parse_options args = Ok m /\
  performs c (if match args with [] => true | _ => false end && tout then MHelp else get_mode m) /\
  (forall streams policy force dir, c = CryptStreams streams policy force dir ->
    exists d u1 u2, (d = Encrypt <-> exists cr fast, dir = DoEncrypt cr fast) /\ force = opt_present m OForce /\
      get_input_output_streams m d force = Ok streams /\
      check_and_adjust_ui_verbosity (Z.of_N (opt_count m OVerbose) - Z.of_N (opt_count m OQuiet)) streams d force tin tout terr u1 = (Ok tt, u2) /\
      match d with
      | Encrypt => exists cr fast, dir = DoEncrypt cr fast /\ get_encrypt_credential sha512 files m force u2 = (Ok cr, u')
      | Decrypt => exists cs, dir = DoDecrypt cs /\ get_decrypt_credentials sha512 files m force u2 = (Ok cs, u')
      end /\
      u1 = set_verbosity u (Z.of_N (opt_count m OVerbose) - Z.of_N (opt_count m OQuiet)) /\
      (policy = match opt_present m OKeepInputs, opt_present m ODiscardInputs with true, _ => KeepFiles | _, true => DeleteFiles | _, _ => PromptUser end)).
Proof.
  intros H. unfold Cli.parse_command_line in H. apply bind_ok in H as (m & u0 & H0 & H). apply lift_ok in H0 as [H0 ->].
  apply bind_ok in H as (x & u0 & H1 & H). apply ensure_ok in H1 as (_ & _ & ->).
  apply bind_ok in H as (x' & u1 & H1 & H). injection H1 as <- E1. exists m. split; [exact H0|].
  destruct (if match args with [] => true | _ => false end && tout then MHelp else get_mode m) as [d| | |].
  - apply bind_ok in H as (streams & u2 & H2 & H). apply lift_ok in H2 as [H2 ->].
    apply bind_ok in H as ([] & u3 & H3 & H). apply bind_ok in H as (policy & u4 & H4 & H). apply bind_ok in H as (dir & u5 & H5 & H).
    apply ret_ok in H as [<- ->].
    assert (u4 = u3 /\ policy = match opt_present m OKeepInputs, opt_present m ODiscardInputs with true, _ => KeepFiles | _, true => DeleteFiles | _, _ => PromptUser end) as [-> Ep].
    { destruct (opt_present m OKeepInputs), (opt_present m ODiscardInputs); try (apply ret_ok in H4 as [<- ->]; auto). discriminate H4. }
    destruct d; apply bind_ok in H5 as (cr & u6 & H5 & H6); apply ret_ok in H6 as [<- ->].
    + split; [exact I|]. intros st po fo di [= <- <- <- <-]. exists Encrypt, u1, u3.
      split; [split; [eauto|reflexivity]|]. split; [reflexivity|]. split; [exact H2|]. split; [exact H3|]. split; [eauto|]. auto.
    + split; [exact I|]. intros st po fo di [= <- <- <- <-]. exists Decrypt, u1, u3.
      split; [split; [discriminate|intros (? & ? & E); discriminate E]|]. split; [reflexivity|]. split; [exact H2|]. split; [exact H3|]. split; [eauto|]. auto.
  - apply bind_ok in H as (ks & u2 & _ & H). apply ret_ok in H as [<- _]. split; [exact I|discriminate].
  - apply ret_ok in H as [<- _]. split; [exact I|discriminate].
  - apply ret_ok in H as [<- _]. split; [exact I|discriminate].
Qed.

Lemma check_inv v streams d force tin tout terr u u' : check_and_adjust_ui_verbosity v streams d force tin tout terr u = (Ok tt, u') ->
  (forall s, streams = [s] -> s_input s = IStdin -> d = Decrypt -> tin = true -> force = true) /\
  (forall s, streams = [s] -> s_output s = Ok OStdout -> d = Encrypt -> tout = true -> force = true) /\
  (v = 0%Z -> u_progress_enabled u' = true ->
    (forall s, streams = [s] -> s_input s = IStdin -> tin = false) /\ (forall s, streams = [s] -> s_output s = Ok OStdout -> tout = false)) /\
  (v <> 0%Z -> u' = u).
Proof.
  unfold check_and_adjust_ui_verbosity. cbv zeta. intros H.
  assert (Hin : forall s, streams = [s] -> s_input s = IStdin -> match streams with [s] => is_stdin s | _ => false end = true) by (intros s -> E; unfold is_stdin; rewrite E; reflexivity).
  assert (Hout : forall s, streams = [s] -> s_output s = Ok OStdout -> match streams with [s] => is_stdout s | _ => false end = true) by (intros s -> E; unfold is_stdout; rewrite E; reflexivity).
  set (bi := match streams with [s] => is_stdin s | _ => false end) in *. set (bo := match streams with [s] => is_stdout s | _ => false end) in *.
  destruct (tin && (bi && negb (is_encrypt d)) && negb force) eqn:E1; [discriminate H|].
  destruct (tout && (bo && is_encrypt d) && negb force) eqn:E2; [discriminate H|].
  split; [|split; [|split]].
  - intros s Es Ei -> ->. rewrite (Hin s Es Ei) in E1. destruct force; [reflexivity|discriminate E1].
  - intros s Es Ei -> ->. rewrite (Hout s Es Ei) in E2. destruct force; [reflexivity|discriminate E2].
  - intros -> Hp. cbn [Z.eqb] in H. injection H as <-. cbn [set_progress_enabled u_progress_enabled] in Hp.
    apply andb_true_iff in Hp as [Hp1 Hp2]. apply andb_true_iff in Hp1 as [_ Hp1]. split.
    + intros s Es Ei. rewrite (Hin s Es Ei) in Hp1. destruct tin; [discriminate Hp1|reflexivity].
    + intros s Es Ei. rewrite (Hout s Es Ei) in Hp2. destruct tout; [discriminate Hp2|reflexivity].
  - intros Nz. rewrite (proj2 (Z.eqb_neq v 0) Nz) in H. injection H as <-. reflexivity.
Qed.

Lemma only_one m d force streams s : get_input_output_streams m d force = Ok streams -> In s streams ->
  s_input s = IStdin \/ s_output s = Ok OStdout -> streams = [s].
Proof.
  intros H I C. destruct (streams_inv _ _ _ _ _ H I) as [(p & E1 & _ & E2)|(E & _)]; [|exact E]. exfalso.
  destruct C as [C|C]; [congruence|]. rewrite C in E2. unfold bind in E2. destruct (match d with Encrypt => _ | Decrypt => _ end); discriminate E2.
Qed.

End WithEnvironment.

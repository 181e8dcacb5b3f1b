(** The order of the credential arguments (C48). *)
From Coq.Strings Require Import Byte String.
From Coq Require Import List NArith Bool PeanoNat Permutation Sorted Lia.
From Verif Require Import Base BaseFacts Text Util UtilProofs UiProofs2 CliErrors Getopts Crypto HeaderCrypto CredSpec KeyFiles Ui CliCreds CliSpec CliProofs CliProofs2.
Import ListNotations.
Local Open Scope N_scope.

(** ** What the option parser guarantees *)

Definition valued (o : occurrence) : Prop :=
  match o_val o with Some _ => has_value (o_opt o) = true | None => has_value (o_opt o) = false end.
(** Of two occurrences in this order. *)
Definition in_order (x y : occurrence) : Prop :=
  (o_pos x <= o_pos y)%nat /\ (o_pos x = o_pos y -> short (o_opt x) <> None /\ short (o_opt y) <> None).

Lemma find_short_some c o : find_short c = Some o -> short o = Some c.
Proof.
  intros H. apply find_some in H as [_ H]. destruct (short o) as [d|]; [|discriminate H]. apply N.eqb_eq in H as ->. reflexivity.
Qed.
Lemma find_short_complete o c : short o = Some c -> find_short c = Some o.
Proof. destruct o; cbn [short]; intros [= <-]; vm_compute; reflexivity. Qed.
Lemma find_long_complete o : find_name (long o) = Some o.
Proof. destruct o; vm_compute; reflexivity. Qed.
Lemma long_not_nil o : long o <> [].
Proof. destruct o; vm_compute; discriminate. Qed.
Lemma split_long o v : split_equals (long o ++ 61 :: v) = (long o, Some v).
Proof. destruct o; vm_compute; reflexivity. Qed.
Lemma split_long_only o : split_equals (long o) = (long o, None).
Proof. destruct o; vm_compute; reflexivity. Qed.

Definition in_cluster (pos : nat) (x : occurrence) : Prop := o_pos x = pos /\ valued x /\ short (o_opt x) <> None.

Lemma cluster_facts pos cs : forall occs last, cluster pos cs = Ok (occs, last) ->
  Forall (in_cluster pos) occs /\
  match last with Some (o, _) => has_value o = true /\ short o <> None | None => True end.
Proof.
  induction cs as [|c cs IH]; cbn [cluster]; intros occs last H; [injection H as <- <-; auto|].
  destruct (find_short c) as [o|] eqn:Eo; [|discriminate H]. apply find_short_some in Eo.
  destruct (has_value o) eqn:Ev.
  - injection H as <- <-. rewrite Eo. repeat split; [constructor|assumption|discriminate].
  - unfold bind in H. destruct (cluster pos cs) as [[occs' last']| |]; try discriminate H. injection H as <- <-.
    destruct (IH _ _ eq_refl) as [F L]. split; [|exact L]. constructor; [|exact F].
    unfold in_cluster, valued. cbn [o_pos o_val o_opt]. rewrite Eo. repeat split; [assumption|discriminate].
Qed.

Lemma match45 {A} c (x y : A) : c <> 45 -> (match c with 45 => x | _ => y end) = y.
Proof. intros H. destruct c as [|p]; [reflexivity|]. do 6 (destruct p as [p|p|]; try reflexivity). contradiction H; reflexivity. Qed.

Definition add_occs (occs : list occurrence) (rest : outcome cerr opt_matches) : outcome cerr opt_matches :=
  let* m := rest in Ok (mkMatches (occs ++ m_occs m) (m_free m)).

(** The forms of an argument. *)
Lemma args_long pos tail args : tail <> [] ->
  parse_args pos ((45 :: 45 :: tail) :: args) =
  let '(name, value) := split_equals tail in
  match find_name name with
  | None => Err CUnrecognizedOption
  | Some o =>
      if has_value o then
        match value with
        | Some v => add_occs [mkOcc pos o (Some v)] (parse_args (S pos) args)
        | None =>
            match args with
            | v :: args => add_occs [mkOcc pos o (Some v)] (parse_args (S pos) args)
            | [] => Err CArgumentMissing
            end
        end
      else
        match value with
        | Some _ => Err CUnexpectedArgument
        | None => add_occs [mkOcc pos o None] (parse_args (S pos) args)
        end
  end.
Proof. intros N. destruct tail as [|t tail]; [contradiction|reflexivity]. Qed.
Lemma args_short pos c cs args : c <> 45 ->
  parse_args pos ((45 :: c :: cs) :: args) =
  let* (occs, last) := cluster pos (c :: cs) in
  match last with
  | None => add_occs occs (parse_args (S pos) args)
  | Some (o, []) =>
      match args with
      | v :: args => add_occs (occs ++ [mkOcc pos o (Some v)]) (parse_args (S pos) args)
      | [] => Err CArgumentMissing
      end
  | Some (o, v) => add_occs (occs ++ [mkOcc pos o (Some v)]) (parse_args (S pos) args)
  end.
Proof.
  intros H. destruct c as [|p]; [reflexivity|]. do 6 (destruct p as [p|p|]; try reflexivity). contradiction H; reflexivity.
Qed.
Lemma args_free pos cur args : (forall a', cur = 45 :: a' -> a' = []) ->
  parse_args pos (cur :: args) = let* m := parse_args (S pos) args in Ok (mkMatches (m_occs m) (cur :: m_free m)).
Proof.
  intros H. destruct cur as [|c cs]; [reflexivity|].
  destruct (N.eq_dec c 45) as [->|D]; [rewrite (H cs eq_refl); reflexivity|].
  destruct c as [|p]; [reflexivity|]. do 6 (destruct p as [p|p|]; try reflexivity). contradiction D; reflexivity.
Qed.
Lemma arg_forms (cur : text) : cur = [45; 45] \/ (exists tail, tail <> [] /\ cur = 45 :: 45 :: tail) \/
  (exists c cs, c <> 45 /\ cur = 45 :: c :: cs) \/ (forall a', cur = 45 :: a' -> a' = []).
Proof.
  destruct cur as [|c cs]; [right; right; right; discriminate|].
  destruct (N.eq_dec c 45) as [->|D]; [|right; right; right; intros a' [= E _]; contradiction].
  destruct cs as [|c2 cs]; [right; right; right; intros a' [= <-]; reflexivity|].
  destruct (N.eq_dec c2 45) as [->|D]; [|right; right; left; eauto].
  destruct cs as [|c3 cs]; [left; reflexivity|]. right; left. exists (c3 :: cs). split; [discriminate|reflexivity].
Qed.

Definition all_later (pos : nat) (occs : list occurrence) : Prop :=
  Forall (fun x => (pos <= o_pos x)%nat) occs /\ Forall valued occs /\ ForallOrdPairs in_order occs.

Lemma ord_pairs_app {A} (R : A -> A -> Prop) l k : ForallOrdPairs R l -> ForallOrdPairs R k -> (forall x y, In x l -> In y k -> R x y) ->
  ForallOrdPairs R (l ++ k).
Proof.
  induction 1 as [|x l Fx Hl IH]; intros Hk C; [exact Hk|]. cbn [app]. constructor.
  - apply Forall_app. split; [exact Fx|]. apply Forall_forall. intros y Iy. apply C; [left; reflexivity|exact Iy].
  - apply IH; [exact Hk|]. intros y z Iy Iz. apply C; [right; exact Iy|exact Iz].
Qed.
Lemma ord_pairs_filter {A} (R : A -> A -> Prop) f l : ForallOrdPairs R l -> ForallOrdPairs R (filter f l).
Proof.
  induction 1 as [|x l Fx Hl IH]; [constructor|]. cbn [filter]. destruct (f x); [|exact IH]. constructor; [|exact IH].
  apply Forall_forall. intros y Iy. apply filter_In in Iy as [Iy _]. rewrite Forall_forall in Fx. auto.
Qed.

Lemma cluster_later pos occs : Forall (in_cluster pos) occs -> all_later pos occs.
Proof.
  intros F. split; [|split].
  - eapply Forall_impl; [|exact F]. intros x (-> & _). lia.
  - eapply Forall_impl; [|exact F]. intros x (_ & V & _). exact V.
  - induction F as [|x l Hx F IH]; constructor; [|exact IH]. apply Forall_forall. intros y Iy. rewrite Forall_forall in F.
    destruct Hx as (Px & _ & Sx), (F y Iy) as (Py & _ & Sy). split; [lia|auto].
Qed.
Lemma single_later pos o v : valued (mkOcc pos o v) -> all_later pos [mkOcc pos o v].
Proof. intros V. split; [|split]; repeat constructor. exact V. Qed.
Lemma later_app pos occs k : all_later pos occs -> Forall (fun x => o_pos x = pos) occs -> all_later (S pos) k -> all_later pos (occs ++ k).
Proof.
  intros (A & B & C) P (A' & B' & C'). split; [|split].
  - apply Forall_app. split; [exact A|]. eapply Forall_impl; [|exact A']. cbn. lia.
  - apply Forall_app; auto.
  - apply ord_pairs_app; auto. intros x y Ix Iy. rewrite Forall_forall in P, A'. specialize (P x Ix). specialize (A' y Iy). split; lia.
Qed.
Lemma later_weaken pos k : all_later (S pos) k -> all_later pos k.
Proof. intros (A & B & C). split; [|auto]. eapply Forall_impl; [|exact A]. cbn. lia. Qed.

Lemma add_occs_inv occs rest m : add_occs occs rest = Ok m -> exists m', rest = Ok m' /\ m_occs m = occs ++ m_occs m'.
Proof. unfold add_occs, bind. destruct rest as [m'| |]; try discriminate. intros [= <-]. eauto. Qed.

Lemma parse_args_later n : forall pos args m, (length args <= n)%nat -> parse_args pos args = Ok m -> all_later pos (m_occs m).
Proof.
  induction n as [|n IH]; intros pos args m Ln H.
  { destruct args; [|cbn in Ln; lia]. injection H as <-. repeat constructor. }
  destruct args as [|cur args]; [injection H as <-; repeat constructor|]. cbn [length] in Ln.
  destruct (arg_forms cur) as [->|[(tail & Nt & ->)|[(c & cs & Nc & ->)|Ff]]].
  - injection H as <-. repeat constructor.
  - rewrite args_long in H by exact Nt. destruct (split_equals tail) as [name value]. destruct (find_name name) as [o|]; [|discriminate H].
    destruct (has_value o) eqn:Ev, value as [v|].
    + apply add_occs_inv in H as (m' & H & ->). apply later_app; [apply single_later; exact Ev|repeat constructor|eapply IH; [|exact H]; lia].
    + destruct args as [|v args]; [discriminate H|]. cbn [length] in Ln.
      apply add_occs_inv in H as (m' & H & ->). apply later_app; [apply single_later; exact Ev|repeat constructor|eapply IH; [|exact H]; lia].
    + discriminate H.
    + apply add_occs_inv in H as (m' & H & ->). apply later_app; [apply single_later; exact Ev|repeat constructor|eapply IH; [|exact H]; lia].
  - rewrite args_short in H by exact Nc. unfold bind in H. destruct (cluster pos (c :: cs)) as [[occs last]| |] eqn:Ec; try discriminate H.
    apply cluster_facts in Ec as [Fc Fl].
    assert (forall v o, has_value o = true /\ short o <> None -> Forall (in_cluster pos) (occs ++ [mkOcc pos o (Some v)])) as Fv.
    { intros v o [A B]. apply Forall_app. split; [exact Fc|]. repeat constructor; assumption. }
    assert (forall l, Forall (in_cluster pos) l -> Forall (fun x => o_pos x = pos) l) as Fp by (intros l; apply Forall_impl; intros x (E & _); exact E).
    destruct last as [[o v]|].
    + specialize (fun v => Fv v _ Fl). destruct v as [|v0 v].
      * destruct args as [|v args]; [discriminate H|]. cbn [length] in Ln. apply add_occs_inv in H as (m' & H & ->).
        apply later_app; [apply cluster_later, Fv|apply Fp, Fv|eapply IH; [|exact H]; lia].
      * apply add_occs_inv in H as (m' & H & ->). apply later_app; [apply cluster_later, Fv|apply Fp, Fv|eapply IH; [|exact H]; lia].
    + apply add_occs_inv in H as (m' & H & ->). apply later_app; [apply cluster_later, Fc|apply Fp, Fc|eapply IH; [|exact H]; lia].
  - rewrite args_free in H by exact Ff. unfold bind in H. destruct (parse_args (S pos) args) as [m'| |] eqn:E; try discriminate H.
    injection H as <-. cbn [m_occs]. apply later_weaken. eapply IH; [|exact E]. lia.
Qed.

Lemma parse_options_args args m : parse_options args = Ok m -> parse_args 0 args = Ok m.
Proof. unfold parse_options, bind. destruct (parse_args 0 args) as [m'| |]; try discriminate. unfold ensure. destruct (forallb _ _); [|discriminate]. intros [= <-]. reflexivity. Qed.
Lemma parse_options_later args m : parse_options args = Ok m -> all_later 0 (m_occs m).
Proof. intros H. eapply parse_args_later; [|apply parse_options_args, H]. apply Nat.le_refl. Qed.

(** ** Numbers *)

Lemma parse_digits_iff t : forall acc n, parse_digits acc t = Ok n <->
  Forall (fun c => 48 <= c <= 57) t /\ n = fold_left (fun a c => 10 * a + digit_value c) t acc /\ (n < two64 \/ t = []).
Proof.
  induction t as [|c t IH]; intros acc n; cbn [parse_digits fold_left].
  { split; [intros [= <-]; auto|intros (_ & -> & _); reflexivity]. }
  assert (forall l a, a <= fold_left (fun a c => 10 * a + digit_value c) l a) as M.
  { induction l as [|x l IHl]; intros a; cbn [fold_left]; [lia|]. specialize (IHl (10 * a + digit_value x)). lia. }
  destruct (N.leb_spec 48 c) as [L1|L1]; cbn [andb].
  2:{ split; [discriminate|]. intros (F & _). inversion F; subst. lia. }
  destruct (N.leb_spec c 57) as [L2|L2].
  2:{ split; [discriminate|]. intros (F & _). inversion F; subst. lia. }
  replace (acc * 10 + (c - 48)) with (10 * acc + digit_value c) by (unfold digit_value; lia).
  destruct (N.ltb_spec (10 * acc + digit_value c) two64) as [L|L].
  - rewrite IH. split.
    + intros (F & -> & Lt). split; [constructor; [lia|exact F]|]. split; [reflexivity|]. left. destruct Lt as [Lt| ->]; [exact Lt|exact L].
    + intros (F & E & Lt). inversion F; subst. split; [assumption|]. split; [reflexivity|]. destruct Lt as [Lt|Lt]; [left; exact Lt|discriminate Lt].
  - split; [discriminate|]. intros (_ & E & [Lt|Lt]); [|discriminate Lt]. specialize (M t (10 * acc + digit_value c)). lia.
Qed.

Lemma match43 {A} c (x y : A) : c <> 43 -> (match c with 43 => x | _ => y end) = y.
Proof. intros H. destruct c as [|p]; [reflexivity|]. do 6 (destruct p as [p|p|]; try reflexivity). contradiction H; reflexivity. Qed.

Lemma parse_usize_plus ds : parse_usize (43 :: ds) = match ds with [] => Err CParseInt | _ => parse_digits 0 ds end.
Proof. reflexivity. Qed.
Lemma parse_usize_plain ds : (forall ds', ds <> 43 :: ds') -> parse_usize ds = match ds with [] => Err CParseInt | _ => parse_digits 0 ds end.
Proof.
  intros H. destruct ds as [|c ds]; [reflexivity|]. unfold parse_usize. rewrite match43; [reflexivity|]. intros ->. exact (H ds eq_refl).
Qed.
Lemma digits_ok ds n : (match ds with [] => Err CParseInt | _ => parse_digits 0 ds end) = Ok n <->
  ds <> [] /\ Forall (fun c => 48 <= c <= 57) ds /\ n = fold_left (fun a c => 10 * a + digit_value c) ds 0 /\ n < two64.
Proof.
  destruct ds as [|c ds]; [split; [discriminate|intros (N & _); contradiction]|]. rewrite parse_digits_iff. split.
  - intros (F & E & [L|L]); [|discriminate L]. repeat split; try assumption. discriminate.
  - intros (_ & F & E & L). auto.
Qed.
Lemma parse_usize_iff v n : parse_usize v = Ok n <-> decimal v n.
Proof.
  assert (forall ds, Forall (fun c => 48 <= c <= 57) ds -> forall ds', ds <> 43 :: ds') as Np.
  { intros ds F ds' ->. inversion F; subst. lia. }
  assert ((exists ds, v = 43 :: ds) \/ forall ds', v <> 43 :: ds') as [[ds ->]|Nv].
  { destruct v as [|c v]; [right; discriminate|]. destruct (N.eq_dec c 43) as [->|D]; [left; eauto|right; congruence]. }
  - rewrite parse_usize_plus, digits_ok. split.
    + intros (N & F & E & L). exists ds. auto 6.
    + intros (ds' & [Ev|Ev] & N & F & E & L); [exfalso; subst ds'; exact (Np _ F ds eq_refl)|]. injection Ev as ->. auto.
  - rewrite parse_usize_plain, digits_ok by exact Nv. split.
    + intros (N & F & E & L). exists v. auto 6.
    + intros (ds' & [->|Ev] & N & F & E & L); [auto|exfalso; exact (Nv _ Ev)].
Qed.

(** ** Extraction *)

Definition tagged (x : occurrence) (y : nat * token) : Prop := fst y = o_pos x /\ occ_token x (snd y).

Lemma forall2_app_flat {A B C} (R : A -> B -> Prop) (f : C -> list A) (g : C -> list B) l :
  (forall c, In c l -> Forall2 R (f c) (g c)) -> Forall2 R (flat_map f l) (flat_map g l).
Proof.
  induction l as [|c l IH]; intros H; [constructor|]. cbn [flat_map]. apply Forall2_app; [apply H; left; reflexivity|].
  apply IH. intros c' I'. apply H. right. exact I'.
Qed.

Lemma opt_eqb_eq a b : opt_eqb a b = true <-> a = b.
Proof. unfold opt_eqb. destruct (opt_eq_dec a b); split; auto; discriminate. Qed.

Lemma occs_of_forall (P : occurrence -> Prop) m o : Forall P (m_occs m) -> Forall P (occs_of m o).
Proof. intros F. apply Forall_forall. intros x Ix. apply filter_In in Ix as [Ix _]. rewrite Forall_forall in F. auto. Qed.
Lemma occs_of_opt m o : Forall (fun x => o_opt x = o) (occs_of m o).
Proof. apply Forall_forall. intros x Ix. apply filter_In in Ix as [_ E]. apply opt_eqb_eq, E. Qed.

Lemma strs_pos m o : Forall valued (m_occs m) -> has_value o = true ->
  Forall2 (fun x y => o_pos x = fst y /\ o_val x = Some (snd y) /\ o_opt x = o) (occs_of m o) (opt_strs_pos m o).
Proof.
  intros V Hv. unfold opt_strs_pos. pose proof (occs_of_forall _ _ o V) as Fv. pose proof (occs_of_opt m o) as Fo.
  induction (occs_of m o) as [|x l IH]; [constructor|]. inversion Fv as [|? ? Vx Fv']; inversion Fo; subst. cbn [flat_map].
  unfold valued in Vx. destruct (o_val x) as [v|] eqn:Ev; [|congruence]. cbn [app]. constructor; [auto|auto].
Qed.

Lemma map_out_forall2 {A B} (f : A -> outcome cerr B) l k : map_out f l = Ok k <-> Forall2 (fun a b => f a = Ok b) l k.
Proof.
  revert k. induction l as [|a l IH]; intros k; cbn [map_out].
  { split; [intros [= <-]; constructor|intros F; inversion F; reflexivity]. }
  unfold bind. split.
  - destruct (f a) as [b| |] eqn:E; try discriminate. destruct (map_out f l) as [bs| |]; try discriminate. intros [= <-].
    constructor; [exact E|apply IH; reflexivity].
  - intros F. inversion F as [|? b ? bs E F']; subst. rewrite E. apply IH in F'. rewrite F'. reflexivity.
Qed.

Lemma forall2_map_r {A B C} (R : A -> C -> Prop) (f : B -> C) l k : Forall2 R l (map f k) <-> Forall2 (fun a b => R a (f b)) l k.
Proof.
  revert k. induction l as [|a l IH]; intros k; split; intros F.
  - destruct k; [constructor|inversion F].
  - inversion F; subst. constructor.
  - destruct k as [|b k]; inversion F; subst. constructor; [assumption|apply IH; assumption].
  - inversion F; subst. cbn [map]. constructor; [assumption|apply IH; assumption].
Qed.
Lemma forall2_impl {A B} (R S : A -> B -> Prop) l k : (forall a b, In a l -> R a b -> S a b) -> Forall2 R l k -> Forall2 S l k.
Proof.
  intros H F. induction F as [|a b l k Rab F IH]; [constructor|]. constructor; [apply H; [left; reflexivity|exact Rab]|].
  apply IH. intros a' b' I'. apply H. right. exact I'.
Qed.
Lemma forall2_compose {A B C} (R : A -> B -> Prop) (S : B -> C -> Prop) l k j : Forall2 R l k -> Forall2 S k j -> Forall2 (fun a c => exists b, R a b /\ S b c) l j.
Proof.
  intros F. revert j. induction F as [|a b l k Rab F IH]; intros j G; inversion G; subst; constructor; eauto.
Qed.

Definition opts_in_table_order : list opt := map fst tokens_without_value ++ map fst tokens_with_int_value ++ map fst tokens_with_str_value.

Definition extracted (m : opt_matches) : outcome cerr (list (nat * token)) :=
  let without := flat_map (fun '(o, t) => map (fun pos => (pos, t)) (opt_positions m o)) tokens_without_value in
  let* with_int := map_out (fun '(o, cred) =>
      map_out (fun '(pos, val) => let* n := parse_usize val in Ok (pos, cred n)) (opt_strs_pos m o)) tokens_with_int_value in
  let with_str := flat_map (fun '(o, cred) => map (fun '(pos, val) => (pos, cred val)) (opt_strs_pos m o)) tokens_with_str_value in
  Ok (without ++ concat with_int ++ with_str).
Lemma extract_tokens_eq m : extract_tokens m =
  let* l := extracted m in
  let tokens := sort_by_pos l in
  let deduped := dedup_by_pos tokens in
  if (length deduped <? length tokens)%nat && (1 <? length deduped)%nat then Err CMergedArguments
  else Ok (map snd tokens).
Proof. unfold extract_tokens, extracted, bind. destruct (map_out _ tokens_with_int_value); reflexivity. Qed.

Lemma without_tagged m o t : Forall valued (m_occs m) -> In (o, t) tokens_without_value ->
  Forall2 tagged (occs_of m o) (map (fun pos => (pos, t)) (opt_positions m o)).
Proof.
  intros V It. unfold opt_positions. rewrite map_map. apply forall2_map_r.
  pose proof (occs_of_opt m o) as Fo. induction (occs_of m o) as [|x l IH]; constructor; inversion Fo; subst; auto.
  split; [reflexivity|]. destruct x as [p o v]. cbn [o_opt snd] in *.
  destruct It as [E|[E|[E|[E|[]]]]]; injection E as <- <-; constructor.
Qed.
Lemma int_tagged m o f l : Forall valued (m_occs m) -> In (o, f) tokens_with_int_value ->
  map_out (fun '(pos, val) => let* n := parse_usize val in Ok (pos, f n)) (opt_strs_pos m o) = Ok l ->
  Forall2 tagged (occs_of m o) l.
Proof.
  intros V It H. apply map_out_forall2 in H.
  assert (has_value o = true) as Hv by (destruct It as [E|[E|[]]]; injection E as <- _; reflexivity).
  eapply forall2_impl; [|exact (forall2_compose _ _ _ _ _ (strs_pos m o V Hv) H)].
  intros [p o' v] [q t] Ix ([pos val] & (Ep & Ev & Eo) & Ef). cbn [o_pos o_val o_opt fst snd] in *. subst.
  unfold bind in Ef. destruct (parse_usize val) as [n| |] eqn:En; try discriminate Ef. injection Ef as <- <-.
  apply parse_usize_iff in En. split; [reflexivity|]. cbn [snd].
  destruct It as [E|[E|[]]]; injection E as <- <-; constructor; exact En.
Qed.
Lemma str_tagged m o f : Forall valued (m_occs m) -> In (o, f) tokens_with_str_value ->
  Forall2 tagged (occs_of m o) (map (fun '(pos, val) => (pos, f val)) (opt_strs_pos m o)).
Proof.
  intros V It.
  assert (has_value o = true) as Hv by (destruct It as [E|[E|[E|[E|[E|[E|[]]]]]]]; injection E as <- _; reflexivity).
  apply forall2_map_r. eapply forall2_impl; [|exact (strs_pos m o V Hv)].
  intros [p o' v] [pos val] Ix (Ep & Ev & Eo). cbn [o_pos o_val o_opt fst snd] in *. subst. split; [reflexivity|]. cbn [snd].
  destruct It as [E|[E|[E|[E|[E|[E|[]]]]]]]; injection E as <- <-; constructor.
Qed.

Lemma ok_inj {A} (x y : A) : @Ok cerr A x = Ok y -> x = y.
Proof. intros [= ->]. reflexivity. Qed.

Lemma extracted_tagged m l : Forall valued (m_occs m) -> extracted m = Ok l ->
  Forall2 tagged (flat_map (occs_of m) opts_in_table_order) l.
Proof.
  intros V H. unfold extracted, bind in H.
  destruct (map_out _ tokens_with_int_value) as [ints| |] eqn:Ei; try discriminate H. apply ok_inj in H as <-.
  unfold opts_in_table_order. rewrite !flat_map_app. apply Forall2_app; [|apply Forall2_app].
  - rewrite flat_map_concat_map, map_map, <- flat_map_concat_map. apply forall2_app_flat.
    intros [o t] It. apply without_tagged; assumption.
  - apply map_out_forall2 in Ei. rewrite flat_map_concat_map, map_map.
    assert (forall tbl ints, (forall p, In p tbl -> In p tokens_with_int_value) ->
      Forall2 (fun a b => (let '(o, cred) := a in map_out (fun '(pos, val) => let* n := parse_usize val in Ok (pos, cred n)) (opt_strs_pos m o)) = Ok b) tbl ints ->
      Forall2 tagged (concat (map (fun x => occs_of m (fst x)) tbl)) (concat ints)) as K.
    { clear Ei ints. intros tbl ints Sub F. induction F as [|[o f] b tbl ints E F IH]; [constructor|]. cbn [map concat fst]. apply Forall2_app.
      - eapply int_tagged; [exact V|apply Sub; left; reflexivity|exact E].
      - apply IH. intros p Ip. apply Sub. right. exact Ip. }
    apply K; [auto|exact Ei].
  - rewrite flat_map_concat_map, map_map, <- flat_map_concat_map. apply forall2_app_flat.
    intros [o t] It. apply str_tagged; assumption.
Qed.

Lemma filter_all_false {A} (f : A -> bool) l : (forall x, In x l -> f x = false) -> filter f l = [].
Proof. induction l as [|x l IH]; intros H; [reflexivity|]. cbn [filter]. rewrite H by (left; reflexivity). apply IH. intros y Iy. apply H. right. exact Iy. Qed.

Lemma filter_split {A} (f g h : A -> bool) l : (forall x, f x = g x || h x) -> (forall x, g x && h x = false) -> Permutation (filter f l) (filter g l ++ filter h l).
Proof.
  intros E D. induction l as [|x l IH]; [constructor|]. cbn [filter]. rewrite E. specialize (D x). destruct (g x), (h x); cbn in *; try discriminate D.
  - constructor. exact IH.
  - apply Permutation_cons_app. exact IH.
  - exact IH.
Qed.
Lemma group_permutation (occs : list occurrence) (os : list opt) : NoDup os ->
  Permutation (filter (fun x => existsb (opt_eqb (o_opt x)) os) occs) (flat_map (fun o => filter (fun x => opt_eqb (o_opt x) o) occs) os).
Proof.
  induction 1 as [|o os Ni Nd IH].
  - cbn [flat_map]. rewrite filter_all_false by reflexivity. constructor.
  - cbn [flat_map]. eapply Permutation_trans; [apply (filter_split _ (fun x => opt_eqb (o_opt x) o) (fun x => existsb (opt_eqb (o_opt x)) os))|].
    + reflexivity.
    + intros x. destruct (opt_eqb (o_opt x) o) eqn:E; [|reflexivity]. cbn [andb]. apply opt_eqb_eq in E.
      destruct (existsb _ os) eqn:Ex; [|reflexivity]. apply existsb_exists in Ex as (o' & I' & E'). apply opt_eqb_eq in E'. congruence.
    + apply Permutation_app_head. exact IH.
Qed.

Lemma table_covers o : existsb (opt_eqb o) opts_in_table_order = credential_opt o.
Proof. destruct o; vm_compute; reflexivity. Qed.
Lemma table_nodup : NoDup opts_in_table_order.
Proof. unfold opts_in_table_order. cbn. repeat constructor; cbn; intuition discriminate. Qed.

Lemma grouped m : Permutation (credential_occs m) (flat_map (occs_of m) opts_in_table_order).
Proof.
  unfold credential_occs. rewrite (filter_ext _ (fun x => existsb (opt_eqb (o_opt x)) opts_in_table_order)) by (intros x; symmetry; apply table_covers).
  apply group_permutation, table_nodup.
Qed.

(** The tokens in the order of the command line, with their positions. *)
Lemma extracted_order m l : Forall valued (m_occs m) -> extracted m = Ok l ->
  exists p, Forall2 tagged (credential_occs m) p /\ Permutation l p.
Proof.
  intros V H. apply extracted_tagged in H; [|exact V].
  destruct (Permutation_Forall2 (Permutation_sym (grouped m)) H) as (p & P & F). exists p. auto.
Qed.

Lemma extracted_total m p : Forall valued (m_occs m) -> Forall2 tagged (credential_occs m) p -> exists l, extracted m = Ok l.
Proof.
  intros V F. unfold extracted, bind.
  assert (forall tbl, (forall q, In q tbl -> In q tokens_with_int_value) -> exists ints, map_out (fun '(o, cred) =>
    map_out (fun '(pos, val) => let* n := parse_usize val in Ok (pos, cred n)) (opt_strs_pos m o)) tbl = Ok ints) as K.
  { induction tbl as [|[o f] tbl IH]; intros Sub; [exists []; reflexivity|]. cbn [map_out].
    destruct IH as (ints & E); [intros q Iq; apply Sub; right; exact Iq|].
    assert (exists b, map_out (fun '(pos, val) => let* n := parse_usize val in Ok (pos, f n)) (opt_strs_pos m o) = Ok b) as (b & Eb).
    { assert (In (o, f) tokens_with_int_value) as It by (apply Sub; left; reflexivity).
      assert (has_value o = true /\ credential_opt o = true /\ (o = OKeyThreshold \/ o = OKeyShares)) as (Hv & Hc & Ho) by (destruct It as [E1|[E1|[]]]; injection E1 as <- _; auto).
      assert (Forall (fun y => exists n, parse_usize (snd y) = Ok n) (opt_strs_pos m o)) as Fn.
      { pose proof (strs_pos m o V Hv) as S.
        assert (forall x, In x (occs_of m o) -> exists t, occ_token x t) as Ft.
        { intros x Ix. apply filter_In in Ix as [Ix Eo]. apply opt_eqb_eq in Eo.
          assert (In x (credential_occs m)) as Ic by (apply filter_In; rewrite Eo; auto).
          clear - F Ic. induction F as [|a b l k [_ T] F IH]; [destruct Ic|]. destruct Ic as [->|Ic]; [eauto|auto]. }
        induction S as [|x y l k (Ep & Ev & Eo) S IHS]; [constructor|]. constructor.
        - destruct (Ft x (or_introl eq_refl)) as (t & T). destruct x as [q o' v]. cbn in *. subst.
          destruct Ho as [->| ->]; inversion T; subst; eexists; apply parse_usize_iff; eassumption.
        - apply IHS. intros z Iz. apply Ft. right. exact Iz. }
      induction (opt_strs_pos m o) as [|[pos val] l IHl]; [exists []; reflexivity|]. inversion Fn as [|? ? (n & En) Fn']; subst.
      destruct (IHl Fn') as (b & Eb). cbn [map_out snd] in *. unfold bind. rewrite En. exists ((pos, f n) :: b). unfold bind in Eb. rewrite Eb. reflexivity. }
    unfold bind at 1. rewrite Eb. unfold bind. unfold bind in E. rewrite E. eauto. }
  destruct (K tokens_with_int_value) as (ints & E); [auto|]. unfold bind in E. rewrite E. eauto.
Qed.

(** ** Sorting *)

Definition le_pos (x y : nat * token) : Prop := (fst x <= fst y)%nat.

Lemma insert_perm x l : Permutation (x :: l) (insert_by_pos x l).
Proof.
  induction l as [|y l IH]; [constructor; constructor|]. cbn [insert_by_pos]. destruct (fst x <=? fst y)%nat; [apply Permutation_refl|].
  eapply Permutation_trans; [apply perm_swap|]. constructor. exact IH.
Qed.
Lemma sort_perm l : Permutation l (sort_by_pos l).
Proof. induction l as [|x l IH]; [constructor|]. cbn [sort_by_pos]. eapply Permutation_trans; [constructor; exact IH|apply insert_perm]. Qed.
Lemma insert_sorted x l : StronglySorted le_pos l -> StronglySorted le_pos (insert_by_pos x l).
Proof.
  induction 1 as [|y l S IH F]; [repeat constructor|]. cbn [insert_by_pos]. destruct (Nat.leb_spec (fst x) (fst y)) as [L|L].
  - constructor; [constructor; assumption|]. constructor; [exact L|]. eapply Forall_impl; [|exact F]. unfold le_pos. intros z. lia.
  - constructor; [exact IH|]. apply Forall_forall. intros z Iz. apply (Permutation_in _ (Permutation_sym (insert_perm x l))) in Iz as [<-|Iz].
    + unfold le_pos. lia.
    + rewrite Forall_forall in F. auto.
Qed.
Lemma sort_sorted l : StronglySorted le_pos (sort_by_pos l).
Proof. induction l as [|x l IH]; [constructor|]. cbn [sort_by_pos]. apply insert_sorted, IH. Qed.

Lemma sorted_unique l : forall k, StronglySorted le_pos l -> StronglySorted le_pos k -> Permutation l k -> NoDup (map fst k) -> l = k.
Proof.
  induction l as [|x l IH]; intros k Sl Sk P N.
  { apply Permutation_nil in P as ->. reflexivity. }
  destruct k as [|y k]; [apply Permutation_sym, Permutation_nil in P; discriminate P|].
  inversion Sl as [|? ? Sl' Fl]; inversion Sk as [|? ? Sk' Fk]; inversion N as [|? ? Ny Nk]; subst.
  assert (x = y) as ->.
  { assert (In x (y :: k)) as [E|Ix] by (eapply Permutation_in; [exact P|left; reflexivity]); [auto|].
    assert (In y (x :: l)) as [E|Iy] by (eapply Permutation_in; [apply Permutation_sym; exact P|left; reflexivity]); [auto|].
    rewrite Forall_forall in Fl, Fk. specialize (Fl y Iy). specialize (Fk x Ix). unfold le_pos in *.
    exfalso. apply Ny. apply in_map_iff. exists x. split; [lia|exact Ix]. }
  f_equal. apply IH; try assumption. eapply Permutation_cons_inv; exact P.
Qed.

Lemma sort_same l p : Forall (fun x => fst x = p) l -> sort_by_pos l = l.
Proof.
  induction 1 as [|x l E F IH]; [reflexivity|]. cbn [sort_by_pos]. rewrite IH. destruct l as [|y l]; [reflexivity|]. cbn [insert_by_pos].
  inversion F; subst. rewrite (proj2 (Nat.leb_le _ _)) by lia. reflexivity.
Qed.

Lemma dedup_length l : (length (dedup_by_pos l) <= length l)%nat.
Proof. induction l as [|x l IH]; [reflexivity|]. cbn [dedup_by_pos length]. destruct (dedup_by_pos l) as [|y k]; cbn [length] in *; [lia|]. destruct (fst x =? fst y)%nat; cbn [length]; lia. Qed.
Lemma dedup_head x l : exists k, dedup_by_pos (x :: l) = x :: k.
Proof. cbn [dedup_by_pos]. destruct (dedup_by_pos l) as [|y k]; [eauto|]. destruct (fst x =? fst y)%nat; eauto. Qed.
Lemma dedup_full l : StronglySorted le_pos l -> length (dedup_by_pos l) = length l -> NoDup (map fst l).
Proof.
  induction 1 as [|x l S IH F]; intros E; [constructor|]. cbn [dedup_by_pos length map] in *.
  pose proof (dedup_length l) as Ll. destruct l as [|z l]; [repeat constructor; intros []|].
  destruct (dedup_head z l) as (k & Ek). rewrite Ek in *. cbn [length] in *.
  destruct (Nat.eqb_spec (fst x) (fst z)) as [Eq|Ne]; cbn [length] in E; [lia|]. specialize (IH ltac:(lia)).
  constructor; [|exact IH]. intros Ix. inversion F as [|? ? Lz Fl]; subst. unfold le_pos in *. destruct Ix as [Ix|Ix]; [congruence|].
  apply in_map_iff in Ix as (w & Ew & Iw). inversion S as [|? ? S' Fz]; subst. rewrite Forall_forall in Fz. specialize (Fz w Iw). lia.
Qed.
Lemma dedup_nodup l : NoDup (map fst l) -> dedup_by_pos l = l.
Proof.
  induction l as [|x l IH]; intros N; [reflexivity|]. cbn [dedup_by_pos map] in *. inversion N as [|? ? Nx N']; subst. rewrite IH by exact N'.
  destruct l as [|y l]; [reflexivity|]. destruct (Nat.eqb_spec (fst x) (fst y)) as [E|D]; [|reflexivity]. contradiction Nx. left. auto.
Qed.
Lemma dedup_one l : (length (dedup_by_pos l) <= 1)%nat -> exists p, Forall (fun x => fst x = p) l.
Proof.
  induction l as [|x l IH]; intros L; [exists O; constructor|]. exists (fst x). constructor; [reflexivity|].
  destruct l as [|y l]; [constructor|]. destruct (dedup_head y l) as (k & Ek).
  assert (dedup_by_pos (x :: y :: l) = if (fst x =? fst y)%nat then x :: k else x :: y :: k) as Ed.
  { change (dedup_by_pos (x :: y :: l)) with (match dedup_by_pos (y :: l) with [] => [x] | y :: k => if (fst x =? fst y)%nat then x :: k else x :: y :: k end).
    rewrite Ek. reflexivity. }
  rewrite Ed in L. destruct (Nat.eqb_spec (fst x) (fst y)) as [E|D]; cbn [length] in *; [|lia]. destruct IH as (p & Fp); [rewrite Ek; cbn [length]; lia|].
  inversion Fp as [|? ? Ey F]; subst. rewrite E. exact Fp.
Qed.

Lemma ordered_sorted occs p : ForallOrdPairs in_order occs -> Forall2 tagged occs p -> StronglySorted le_pos p.
Proof.
  intros O F. revert O. induction F as [|x y l k [Ep _] F IH]; intros O; [constructor|]. inversion O as [|? ? Fx O']; subst. constructor; [auto|].
  clear IH O O'. induction F as [|x' y' l k [Ep' _] F IH]; [constructor|]. inversion Fx as [|? ? [L _] Fx']; subst. constructor; [|auto]. unfold le_pos. lia.
Qed.

Lemma credential_later m pos : all_later pos (m_occs m) -> Forall valued (credential_occs m) /\ ForallOrdPairs in_order (credential_occs m).
Proof.
  intros (_ & V & O). split; [|apply ord_pairs_filter, O]. apply Forall_forall. intros x Ix. apply filter_In in Ix as [Ix _]. rewrite Forall_forall in V. auto.
Qed.

Lemma tagged_tokens occs p : Forall2 tagged occs p -> Forall2 occ_token occs (map snd p).
Proof. intros F. apply forall2_map_r. eapply forall2_impl; [|exact F]. intros a b _ [_ T]. exact T. Qed.
Lemma tagged_positions occs p : Forall2 tagged occs p -> map fst p = map o_pos occs.
Proof. induction 1 as [|x y l k [E _] F IH]; [reflexivity|]. cbn [map]. f_equal; auto. Qed.

(** Every credential option in an argument of its own. *)
Lemma extract_separate m ts : all_later 0 (m_occs m) -> Forall2 occ_token (credential_occs m) ts -> NoDup (map o_pos (credential_occs m)) ->
  extract_tokens m = Ok ts.
Proof.
  intros A F N. pose proof A as (_ & V & _). destruct (credential_later _ _ A) as [_ O].
  assert (exists p, Forall2 tagged (credential_occs m) p /\ map snd p = ts) as (p & Fp & <-).
  { clear - F. induction F as [|x t l k T F (p & Fp & E)]; [exists []; split; [constructor|reflexivity]|].
    exists ((o_pos x, t) :: p). split; [constructor; [split; auto|exact Fp]|cbn; f_equal; exact E]. }
  destruct (extracted_total m p V Fp) as (l & El). rewrite extract_tokens_eq. unfold bind. rewrite El.
  destruct (extracted_order m l V El) as (p' & Fp' & P).
  assert (map snd p' = map snd p) as Es.
  { apply tagged_tokens in Fp, Fp'. clear - Fp Fp'. revert Fp'. generalize (map snd p') as k'. induction Fp as [|x t l k T F IH]; intros k' G; inversion G as [|? t' ? k2 T' F']; subst; [reflexivity|].
    f_equal; [|auto]. inversion T; subst; inversion T'; subst; try reflexivity; f_equal;
      match goal with A : decimal ?v _, B : decimal ?v _ |- _ => apply parse_usize_iff in A, B; congruence end. }
  assert (NoDup (map fst p')) as N' by (rewrite (tagged_positions _ _ Fp'); exact N).
  assert (sort_by_pos l = p') as ->.
  { apply sorted_unique; [apply sort_sorted|eapply ordered_sorted; eassumption|eapply Permutation_trans; [apply Permutation_sym, sort_perm|exact P]|exact N']. }
  rewrite dedup_nodup by exact N'. rewrite Nat.ltb_irrefl. cbn [andb]. rewrite Es. reflexivity.
Qed.

(** ** Several options in one argument *)

Lemma same_position_short occs pos : ForallOrdPairs in_order occs -> Forall (fun x => o_pos x = pos) occs -> (2 <= length occs)%nat ->
  Forall (fun x => short (o_opt x) <> None) occs.
Proof.
  intros O F L. destruct occs as [|x [|y l]]; cbn in L; try lia. inversion O as [|? ? Fx O']; subst. inversion F as [|? ? Ex F']; subst.
  constructor.
  - inversion Fx as [|? ? [_ S] _]; subst. inversion F'; subst. apply S. lia.
  - apply Forall_forall. intros z Iz. rewrite Forall_forall in Fx, F'. apply (Fx z Iz). symmetry. apply F', Iz.
Qed.

Lemma forall2_same_length {A B} (R : A -> B -> Prop) l k : Forall2 R l k -> length l = length k.
Proof. induction 1; cbn; auto. Qed.

Lemma no_occs m o : Forall (fun x => short (o_opt x) <> None) (credential_occs m) -> credential_opt o = true -> short o = None -> occs_of m o = [].
Proof.
  intros F C S. apply filter_all_false. intros x Ix. destruct (opt_eqb (o_opt x) o) eqn:E; [|reflexivity]. apply opt_eqb_eq in E.
  exfalso. rewrite Forall_forall in F. apply (F x); [|congruence]. apply filter_In. rewrite E. auto.
Qed.

Lemma map_const {A B} (x : B) (l : list A) : map (fun _ => x) l = repeat x (length l).
Proof. induction l as [|a l IH]; [reflexivity|]. cbn. f_equal. exact IH. Qed.

Lemma merged_form m l : Forall valued (m_occs m) -> Forall (fun x => short (o_opt x) <> None) (credential_occs m) -> extracted m = Ok l ->
  exists i k j ths, map snd l = repeat InteractivePassword i ++ repeat StartGroup k ++ repeat EndGroup j ++ ths /\ Forall is_threshold ths.
Proof.
  intros V S H.
  assert (forall o, credential_opt o = true -> short o = None -> opt_strs_pos m o = []) as Z.
  { intros o C So. unfold opt_strs_pos. rewrite no_occs by assumption. reflexivity. }
  unfold extracted in H.
  assert (flat_map (fun '(o, cred) => map (fun '(pos, val) => (pos, cred val)) (opt_strs_pos m o)) tokens_with_str_value = []) as Es.
  { unfold tokens_with_str_value. cbn [flat_map]. rewrite !Z by reflexivity. reflexivity. }
  rewrite Es in H. clear Es. unfold tokens_with_int_value in H. cbn [map_out] in H. rewrite (Z OKeyShares) in H by reflexivity. cbn [map_out] in H.
  unfold bind at 1 2 in H.
  destruct (map_out (fun '(pos, val) => let* n := parse_usize val in Ok (pos, KeyThreshold n)) (opt_strs_pos m OKeyThreshold)) as [ths| |] eqn:Et; try discriminate H.
  cbn in H. injection H as <-. rewrite !app_nil_r.
  exists (length (opt_positions m OPassword)), (length (opt_positions m OStartGroup)), (length (opt_positions m OEndGroup)),
    (repeat RequireAllKeys (length (opt_positions m ORequireAllKeys)) ++ map snd ths).
  split.
  - rewrite !map_app, !map_map. cbn [snd]. rewrite !map_const, <- !app_assoc. reflexivity.
  - apply Forall_app. split; [apply Forall_forall; intros x Ix; apply repeat_spec in Ix as ->; exact I|].
    apply map_out_forall2 in Et. apply Forall_forall. intros t It. apply in_map_iff in It as ([p t'] & <- & It). cbn [snd].
    clear - Et It. induction Et as [|[pos val] b l k E F IH]; [destruct It|]. destruct It as [->|It]; [|auto].
    unfold bind in E. destruct (parse_usize val); try discriminate E. injection E as _ <-. exact I.
Qed.

Section WithEnvironment.
Variable sha512 : bytes -> bytes.
Variable files : text -> option bytes.

Lemma extract_order m ts : all_later 0 (m_occs m) -> extract_tokens m = Ok ts ->
  exists ordered, Forall2 occ_token (credential_occs m) ordered /\ Permutation ts ordered /\
    (NoDup (map o_pos (credential_occs m)) -> ts = ordered) /\
    forall d sk u c u', parse_complex_credential sha512 files d sk ts u = (Ok c, u') ->
      parse_complex_credential sha512 files d sk ordered u = (Ok c, u').
Proof.
  intros A H. pose proof A as (_ & V & _). destruct (credential_later _ _ A) as [Vc O].
  rewrite extract_tokens_eq in H. unfold bind in H. destruct (extracted m) as [l| |] eqn:El; try discriminate H.
  destruct (extracted_order m l V El) as (p & Fp & P). exists (map snd p). split; [apply tagged_tokens, Fp|].
  assert (StronglySorted le_pos p) as Sp by (eapply ordered_sorted; eassumption).
  assert (Permutation (sort_by_pos l) p) as Ps by (eapply Permutation_trans; [apply Permutation_sym, sort_perm|exact P]).
  assert (NoDup (map fst p) -> sort_by_pos l = p) as Un by (intros N; apply sorted_unique; [apply sort_sorted|exact Sp|exact Ps|exact N]).
  destruct ((length (dedup_by_pos (sort_by_pos l)) <? length (sort_by_pos l))%nat && (1 <? length (dedup_by_pos (sort_by_pos l)))%nat) eqn:E; [discriminate H|].
  injection H as <-. split; [apply Permutation_map, Ps|]. split.
  { intros N. rewrite Un; [reflexivity|]. rewrite (tagged_positions _ _ Fp). exact N. }
  apply andb_false_iff in E as [E|E]; apply Nat.ltb_ge in E.
  - assert (NoDup (map fst (sort_by_pos l))) as N.
    { apply dedup_full; [apply sort_sorted|]. pose proof (dedup_length (sort_by_pos l)). lia. }
    rewrite Un; [auto|]. eapply Permutation_NoDup; [apply Permutation_map; exact Ps|exact N].
  - apply dedup_one in E as (pos & F).
    assert (Forall (fun x => fst x = pos) p) as Fpos by (apply Forall_forall; intros x Ix; rewrite Forall_forall in F; apply F; eapply Permutation_in; [apply Permutation_sym; exact Ps|exact Ix]).
    assert (Forall (fun x => fst x = pos) l) as Fl by (apply Forall_forall; intros x Ix; rewrite Forall_forall in F; apply F; eapply Permutation_in; [apply sort_perm|exact Ix]).
    destruct (Nat.le_gt_cases 2 (length (credential_occs m))) as [L2|L2].
    + assert (Forall (fun x => short (o_opt x) <> None) (credential_occs m)) as S.
      { eapply (same_position_short _ pos); [exact O| |exact L2]. clear - Fp Fpos. induction Fp as [|x y l k [E _] F IH]; [constructor|]. inversion Fpos; subst. constructor; [congruence|auto]. }
      destruct (merged_form m l V S El) as (i & k & j & ths & Em & Ft). rewrite (sort_same l pos Fl), Em.
      intros d sk u c u' H. eapply merged_parse; [exact Ft| |exact H]. rewrite <- Em. apply Permutation_map, P.
    + rewrite Un; [auto|]. apply forall2_same_length in Fp. destruct p as [|x [|y p]]; cbn [length map] in *; [constructor|repeat constructor; intros []|lia].
Qed.

End WithEnvironment.

(** ** Options on their own *)

Lemma says_args args ts : says args ts -> forall pos m, parse_args pos args = Ok m ->
  Forall2 occ_token (credential_occs m) ts /\ Forall (fun x => (pos <= o_pos x)%nat) (m_occs m) /\ NoDup (map o_pos (m_occs m)).
Proof.
  assert (One : forall pos o v arg args m, spelled o v arg -> parse_args pos (arg ++ args) = Ok m ->
    exists m', parse_args (S pos) args = Ok m' /\ m_occs m = mkOcc pos o v :: m_occs m').
  { intros pos o v arg rest m Sp H.
    assert (forall o c, short o = Some c -> c <> 45) as Nd by (intros o' c E ->; destruct o'; discriminate E).
    destruct Sp as [o c Hv Hs|o Hv|o c v Hv Hs|o c v Hv Hs Nv|o v Hv|o v Hv]; cbn [app] in H.
    - rewrite args_short in H by (eapply Nd; exact Hs). cbn [cluster] in H. rewrite (find_short_complete _ _ Hs), Hv in H. cbn in H.
      apply add_occs_inv in H as (m' & H & ->). eauto.
    - rewrite args_long in H by apply long_not_nil. rewrite split_long_only, find_long_complete, Hv in H. apply add_occs_inv in H as (m' & H & ->). eauto.
    - rewrite args_short in H by (eapply Nd; exact Hs). cbn [cluster] in H. rewrite (find_short_complete _ _ Hs), Hv in H. cbn in H.
      apply add_occs_inv in H as (m' & H & ->). eauto.
    - rewrite args_short in H by (eapply Nd; exact Hs). cbn [cluster] in H. rewrite (find_short_complete _ _ Hs), Hv in H. cbn in H.
      destruct v as [|v0 v]; [contradiction|]. apply add_occs_inv in H as (m' & H & ->). eauto.
    - rewrite args_long in H by apply long_not_nil. rewrite split_long_only, find_long_complete, Hv in H. apply add_occs_inv in H as (m' & H & ->). eauto.
    - rewrite args_long in H by (destruct (long o); discriminate). rewrite split_long, find_long_complete, Hv in H. apply add_occs_inv in H as (m' & H & ->). eauto. }
  assert (Later : forall pos o v l, Forall (fun x => (S pos <= o_pos x)%nat) l -> NoDup (map o_pos l) ->
    Forall (fun x => (pos <= o_pos x)%nat) (mkOcc pos o v :: l) /\ NoDup (map o_pos (mkOcc pos o v :: l))).
  { intros pos o v l F N. split; [constructor; [apply Nat.le_refl|]; eapply Forall_impl; [|exact F]; cbn; lia|]. cbn [map o_pos]. constructor; [|exact N].
    intros Ix. apply in_map_iff in Ix as (x & E & Ix). rewrite Forall_forall in F. specialize (F x Ix). lia. }
  assert (Tok : forall p q o v t, occ_token (mkOcc p o v) t -> occ_token (mkOcc q o v) t) by (intros p q o v t T; inversion T; subst; constructor; assumption).
  induction 1 as [|o v arg t args ts Sp T Sa IH|o v arg args ts Sp C Sa IH|a args ts Ff Sa IH|args]; intros pos m H.
  - injection H as <-. repeat constructor.
  - destruct (One _ _ _ _ _ _ Sp H) as (m' & H' & E). destruct (IH _ _ H') as (F & Fl & N). rewrite E. destruct (Later pos o v _ Fl N) as [A B].
    split; [|auto]. unfold credential_occs in *. rewrite E. cbn [filter o_opt].
    assert (credential_opt o = true) as -> by (inversion T; reflexivity). constructor; [eapply Tok; exact T|exact F].
  - destruct (One _ _ _ _ _ _ Sp H) as (m' & H' & E). destruct (IH _ _ H') as (F & Fl & N). rewrite E. destruct (Later pos o v _ Fl N) as [A B].
    split; [|auto]. unfold credential_occs in *. rewrite E. cbn [filter o_opt]. rewrite C. exact F.
  - rewrite args_free in H by exact Ff. unfold bind in H. destruct (parse_args (S pos) args) as [m'| |] eqn:E; try discriminate H. injection H as <-.
    destruct (IH _ _ E) as (F & Fl & N). cbn [m_occs]. split; [exact F|]. split; [|exact N]. eapply Forall_impl; [|exact Fl]. cbn. lia.
  - injection H as <-. repeat constructor.
Qed.

Lemma nodup_filter_map {A B} (f : A -> B) g l : NoDup (map f l) -> NoDup (map f (filter g l)).
Proof.
  induction l as [|x l IH]; [auto|]. cbn [map filter]. intros N. inversion N as [|? ? Nx N']; subst. destruct (g x); [|auto]. cbn [map]. constructor; [|auto].
  intros Ix. apply Nx. apply in_map_iff in Ix as (y & E & Iy). apply filter_In in Iy as [Iy _]. apply in_map_iff. eauto.
Qed.

Lemma says_tokens args ts m : says args ts -> parse_options args = Ok m -> extract_tokens m = Ok ts.
Proof.
  intros S H. pose proof (parse_options_later _ _ H) as A. apply parse_options_args in H.
  destruct (says_args _ _ S _ _ H) as (F & _ & N). apply extract_separate; [exact A|exact F|]. apply nodup_filter_map, N.
Qed.

(** Proofs that the options other than -v and -q are read in the same way without them. *)
From Coq.Strings Require Import Byte String.
From Coq Require Import List NArith ZArith Bool PeanoNat Lia.
From Verif Require Import Base BaseFacts Text Util CliErrors Getopts Crypto HeaderCrypto KeyFiles Ui CliCreds Cli Fs OptSpec OptProofs QuietSpec LoudSpec.
Import ListNotations.
Local Open Scope N_scope.

Definition loud (o : opt) : bool := match o with OVerbose | OQuiet => true | _ => false end.
Definition soft (l : list occurrence) : list occurrence := filter (fun x => negb (loud (o_opt x))) l.
Definition renum (f : nat -> nat) (x : occurrence) : occurrence := mkOcc (f (o_pos x)) (o_opt x) (o_val x).
Definition rising (f : nat -> nat) : Prop := forall a b, (a < b)%nat -> (f a < f b)%nat.
Definition rising_from (q : nat) (f : nat -> nat) : Prop := forall a b, (q <= a)%nat -> (a < b)%nat -> (f a < f b)%nat.

(** ** Reading *)

Lemma item_renum pos pos' args o f : item pos args o f -> item pos' args (map (fun x => mkOcc pos' (o_opt x) (o_val x)) o) f.
Proof.
  destruct 1; cbn [map o_opt o_val]; rewrite ?map_app, ?map_map; cbn [map o_opt o_val]; econstructor; eassumption.
Qed.
Lemma item_at pos args o f : item pos args o f -> Forall (fun x => o_pos x = pos) o.
Proof.
  assert (G : forall os, Forall (fun x => o_pos x = pos) (map (fun o => mkOcc pos o None) os)) by (intros os; apply Forall_forall; intros x H; apply in_map_iff in H as (y & <- & _); reflexivity).
  destruct 1; try apply Forall_app; repeat split; try apply G; repeat constructor.
Qed.
Lemma loudness_item pos a : loudness a -> exists o, item pos [a] o [] /\ soft o = [].
Proof.
  intros [->|[->|(letters & NE & F & ->)]].
  - exists [mkOcc pos OVerbose None]. split; [|reflexivity].
    apply (it_long pos OVerbose (lit "verbose")); [left; reflexivity|intros []].
  - exists [mkOcc pos OQuiet None]. split; [|reflexivity].
    apply (it_long pos OQuiet (lit "quiet")); [left; reflexivity|intros []].
  - assert (exists os, flags os letters /\ (os = [] -> letters = []) /\ soft (map (fun o => mkOcc pos o None) os) = []) as (os & Fl & NO & Sf).
    { clear NE. induction F as [|c letters [E|E] F IH].
      - exists []. split; [constructor|]. split; [auto|reflexivity].
      - destruct IH as (os & A & B & C). exists (OVerbose :: os). split; [constructor; [split; [symmetry; exact E|intros []]|exact A]|]. split; [discriminate|exact C].
      - destruct IH as (os & A & B & C). exists (OQuiet :: os). split; [constructor; [split; [symmetry; exact E|intros []]|exact A]|]. split; [discriminate|exact C]. }
    eexists. split; [|exact Sf]. apply it_short; [exact Fl|]. intros E. apply NE, NO, E.
Qed.

Lemma soft_app a b : soft (a ++ b) = soft a ++ soft b.
Proof. apply filter_app. Qed.
Lemma soft_renum f l : soft (map (renum f) l) = map (renum f) (soft l).
Proof. induction l as [|x l IH]; [reflexivity|]. cbn [map soft filter renum o_opt]. unfold soft in IH. destruct (negb (loud (o_opt x))); cbn [map]; rewrite IH; reflexivity. Qed.

Lemma without_means args base : without_loudness args base -> forall p q, exists occs occs0 free f,
  means p args occs free /\ means q base occs0 free /\ rising_from q f /\ (forall n, (q <= n)%nat -> (p <= f n)%nat) /\
  Forall (fun x => (q <= o_pos x)%nat) occs0 /\ soft occs = map (renum f) (soft occs0).
Proof.
  induction 1 as [|rest|pos0 a o f rest base It W IH|a rest base Lo W IH]; intros p q.
  - exists [], [], [], (fun n => (n + p)%nat). repeat split; try constructor; try (intros; lia). intros x y; lia.
  - exists [], [], rest, (fun n => (n + p)%nat). repeat split; try constructor; try (intros; lia). intros x y; lia.
  - destruct (IH (S p) (S q)) as (occs & occs0 & free & g & M & M0 & R & B & Fq & E).
    pose proof (item_renum pos0 p _ _ _ It) as I1. pose proof (item_renum pos0 q _ _ _ It) as I2.
    set (g' := fun n => if (n =? q)%nat then p else g n).
    eexists _, _, (f ++ free), g'. split; [exact (rd_item _ _ _ _ _ _ _ I1 M)|]. split; [exact (rd_item _ _ _ _ _ _ _ I2 M0)|].
    split; [|split; [|split]].
    + intros x y Lx Lxy. unfold g'. destruct (Nat.eqb_spec x q) as [->|]; destruct (Nat.eqb_spec y q) as [->|]; try lia.
      * specialize (B y). lia.
      * apply R; lia.
    + intros n Ln. unfold g'. destruct (Nat.eqb_spec n q); [lia|]. specialize (B n). lia.
    + apply Forall_app. split; [|eapply Forall_impl; [|exact Fq]; cbn; lia].
      apply Forall_forall. intros x H. apply in_map_iff in H as (y & <- & _). cbn. lia.
    + rewrite !soft_app, map_app, E. f_equal.
      * rewrite <- soft_renum, map_map. f_equal. apply map_ext. intros x. unfold renum, g'. cbn [o_pos o_opt o_val]. rewrite Nat.eqb_refl. reflexivity.
      * apply map_ext_in. intros x H. unfold renum, g'. f_equal. apply filter_In in H as [H _].
        rewrite Forall_forall in Fq. specialize (Fq x H). destruct (Nat.eqb_spec (o_pos x) q); [lia|reflexivity].
  - destruct (IH (S p) q) as (occs & occs0 & free & g & M & M0 & R & B & Fq & E).
    destruct (loudness_item p a Lo) as (o & It & So).
    exists (o ++ occs), occs0, ([] ++ free), g. split; [exact (rd_item p [a] o [] rest occs free It M)|]. split; [exact M0|]. split; [exact R|].
    split; [intros n Ln; specialize (B n Ln); lia|]. split; [exact Fq|]. rewrite soft_app, So. exact E.
Qed.

(** ** Only the other options matter *)

Definition same_options (m m' : opt_matches) : Prop :=
  m_free m = m_free m' /\ exists f, rising f /\ soft (m_occs m) = map (renum f) (soft (m_occs m')).

Lemma occs_soft l o : loud o = false -> filter (fun x => opt_eqb (o_opt x) o) l = filter (fun x => opt_eqb (o_opt x) o) (soft l).
Proof.
  intros Lo. induction l as [|x l IH]; [reflexivity|]. cbn [filter soft].
  destruct (opt_eqb (o_opt x) o) eqn:E.
  - assert (Eo : o_opt x = o) by (unfold opt_eqb in E; destruct (opt_eq_dec (o_opt x) o) as [Y|]; [exact Y|discriminate E]).
    rewrite Eo, Lo. cbn [negb filter]. rewrite E. f_equal. exact IH.
  - destruct (negb (loud (o_opt x))); [cbn [filter]; rewrite E|]; exact IH.
Qed.
Lemma filter_renum f l o : filter (fun x => opt_eqb (o_opt x) o) (map (renum f) l) = map (renum f) (filter (fun x => opt_eqb (o_opt x) o) l).
Proof. induction l as [|x l IH]; [reflexivity|]. cbn [map filter renum o_opt]. destruct (opt_eqb (o_opt x) o); cbn [map]; rewrite IH; reflexivity. Qed.

Section Same.
Variables m m' : opt_matches.
Variable f : nat -> nat.
Hypothesis F : rising f.
Hypothesis Hfree : m_free m = m_free m'.
Hypothesis Hsoft : soft (m_occs m) = map (renum f) (soft (m_occs m')).

Lemma same_occs o : loud o = false -> occs_of m o = map (renum f) (occs_of m' o).
Proof. intros L. unfold occs_of. rewrite (occs_soft (m_occs m) o L), (occs_soft (m_occs m') o L), Hsoft, filter_renum. reflexivity. Qed.
Lemma same_count o : loud o = false -> opt_count m o = opt_count m' o.
Proof. intros L. unfold opt_count, lenN. rewrite (same_occs o L), map_length. reflexivity. Qed.
Lemma same_present o : loud o = false -> opt_present m o = opt_present m' o.
Proof. intros L. unfold opt_present. rewrite (same_occs o L). destruct (occs_of m' o); reflexivity. Qed.
Lemma same_positions o : loud o = false -> opt_positions m o = map f (opt_positions m' o).
Proof. intros L. unfold opt_positions. rewrite (same_occs o L), !map_map. reflexivity. Qed.
Definition move {A} (x : nat * A) : nat * A := (f (fst x), snd x).
Lemma same_strs o : loud o = false -> opt_strs_pos m o = map move (opt_strs_pos m' o).
Proof.
  intros L. unfold opt_strs_pos. rewrite (same_occs o L). generalize (occs_of m' o). intros l.
  induction l as [|x l IH]; [reflexivity|]. cbn [map flat_map renum o_val o_pos]. rewrite map_app, IH. destruct (o_val x); reflexivity.
Qed.
Lemma same_str o : loud o = false -> opt_str m o = opt_str m' o.
Proof. intros L. unfold opt_str. rewrite (same_strs o L). destruct (opt_strs_pos m' o) as [|[p v] l]; reflexivity. Qed.

Lemma f_le a b : (f a <=? f b)%nat = (a <=? b)%nat.
Proof.
  destruct (Nat.leb_spec a b) as [H|H].
  - apply Nat.leb_le. destruct (Nat.eq_dec a b) as [->|N]; [lia|]. pose proof (F a b). lia.
  - apply Nat.leb_gt. apply F, H.
Qed.
Lemma f_eq a b : (f a =? f b)%nat = (a =? b)%nat.
Proof.
  destruct (Nat.eqb_spec a b) as [->|N]; [apply Nat.eqb_refl|]. apply Nat.eqb_neq. pose proof (F a b). pose proof (F b a). lia.
Qed.
Lemma insert_move x l : insert_by_pos (move x) (map move l) = map move (insert_by_pos x l).
Proof.
  induction l as [|y l IH]; [reflexivity|]. cbn [map insert_by_pos]. change (fst (move x)) with (f (fst x)). change (fst (move y)) with (f (fst y)). rewrite f_le.
  destruct (fst x <=? fst y)%nat; [reflexivity|]. cbn [map]. rewrite <- IH. reflexivity.
Qed.
Lemma sort_move l : sort_by_pos (map move l) = map move (sort_by_pos l).
Proof. induction l as [|x l IH]; [reflexivity|]. cbn [map sort_by_pos]. rewrite IH. apply insert_move. Qed.
Lemma dedup_move l : dedup_by_pos (map move l) = map move (dedup_by_pos l).
Proof.
  induction l as [|x l IH]; [reflexivity|]. cbn [map dedup_by_pos]. rewrite IH. destruct (dedup_by_pos l) as [|y k]; [reflexivity|]. cbn [map].
  change (fst (move x)) with (f (fst x)). change (fst (move y)) with (f (fst y)). rewrite f_eq. destruct (fst x =? fst y)%nat; reflexivity.
Qed.
Lemma max_move {A} l : forall b : option (nat * A), max_by_pos (option_map move b) (map move l) = option_map move (max_by_pos b l).
Proof.
  induction l as [|x l IH]; intros b; [reflexivity|]. cbn [map max_by_pos]. rewrite <- IH. f_equal. cbn [option_map]. f_equal.
  destruct b as [y|]; [|reflexivity]. cbn [option_map]. change (fst (move x)) with (f (fst x)). change (fst (move y)) with (f (fst y)).
  assert ((f (fst x) <? f (fst y)) = (fst x <? fst y))%nat as ->.
  { unfold Nat.ltb. destruct (Nat.leb_spec (S (fst x)) (fst y)) as [H|H].
    - apply Nat.leb_le. pose proof (F (fst x) (fst y)). lia.
    - apply Nat.leb_gt. pose proof (f_le (fst y) (fst x)) as G. destruct (Nat.leb_spec (fst y) (fst x)); [apply Nat.leb_le in G; lia|lia]. }
  destruct (fst x <? fst y)%nat; reflexivity.
Qed.

Lemma same_mode : get_mode m = get_mode m'.
Proof.
  unfold get_mode, MODES. cbn [flat_map]. rewrite !same_positions by reflexivity.
  match goal with |- match max_by_pos None ?a with _ => _ end = match max_by_pos None ?b with _ => _ end => assert (a = map move b) as -> end.
  { rewrite !map_app, !map_map. cbn [map]. reflexivity. }
  match goal with |- context [max_by_pos None (map move ?b)] => pose proof (max_move (A := operation_mode) b None) as X; generalize dependent b end.
  intros b X. cbn [option_map] in X. rewrite X. destruct (max_by_pos None b) as [[? ?]|]; reflexivity.
Qed.

Lemma map_out_move {A} (g : nat * text -> outcome cerr (nat * A)) (h : N -> A) l :
  g = (fun '(pos, val) => let* n := parse_usize val in Ok (pos, h n)) ->
  map_out g (map move l) = let* r := map_out g l in Ok (map move r).
Proof.
  intros ->. induction l as [|[p v] l IH]; [reflexivity|]. cbn [map map_out]. change (move (p, v)) with (f p, v). cbv beta iota. destruct (parse_usize v) as [n|e|]; cbn [bind]; try reflexivity.
  rewrite IH. destruct (map_out _ l); reflexivity.
Qed.

Lemma move_named {A} (c : text -> A) l : map (fun '(pos, val) => (pos, c val)) (map move l) = map move (map (fun '(pos, val) => (pos, c val)) l).
Proof. rewrite !map_map. apply map_ext. intros [? ?]. reflexivity. Qed.
Lemma move_plain {A} (t : A) l : map (fun pos => (pos, t)) (map f l) = map move (map (fun pos => (pos, t)) l).
Proof. rewrite !map_map. reflexivity. Qed.
Lemma same_tokens : extract_tokens m = extract_tokens m'.
Proof.
  unfold extract_tokens, tokens_without_value, tokens_with_int_value, tokens_with_str_value. cbn [flat_map map_out].
  rewrite !same_positions by reflexivity. rewrite !same_strs by reflexivity.
  rewrite !(map_out_move _ _ _ eq_refl).
  repeat match goal with |- context [map_out ?g ?l] => destruct (map_out g l) as [?|?|]; cbn [bind]; try reflexivity end.
  match goal with |- ?l = ?r => match l with context [sort_by_pos ?a] => match r with context [sort_by_pos ?b] => assert (a = map move b) as -> end end end.
  { cbn [concat]. rewrite !move_named, !move_plain, !map_app. reflexivity. }
  rewrite sort_move, dedup_move, !map_length, map_map. reflexivity.
Qed.

Lemma same_streams d force : get_input_output_streams m d force = get_input_output_streams m' d force.
Proof. unfold get_input_output_streams, get_encrypted_file_extension. rewrite Hfree, (same_present OStream), (same_str OSuffix) by reflexivity. reflexivity. Qed.
Lemma same_keypair_streams : get_keypair_streams m = get_keypair_streams m'.
Proof. unfold get_keypair_streams. rewrite Hfree. reflexivity. Qed.
Lemma same_once : forallb (fun o => may_repeat o || (opt_count m o <=? 1)) all_opts = forallb (fun o => may_repeat o || (opt_count m' o <=? 1)) all_opts.
Proof. unfold all_opts. cbn [forallb]. cbn [may_repeat orb]. rewrite !same_count by reflexivity. reflexivity. Qed.
End Same.

(** Proofs about key files. *)
From Coq.Strings Require Import Byte.
From Coq Require Import List NArith Bool Lia PeanoNat.
From Verif Require Import Base BaseFacts Text TextProofs Util UtilSpec UtilProofs CliErrors Crypto HeaderCrypto KeyFiles.
Import ListNotations.
Local Open Scope N_scope.

Lemma digit_ascii u v : v < 16 -> ascii (digit u v).
Proof. unfold ascii. revert v. destruct u; apply below16; reflexivity. Qed.

Lemma hex_of_ascii a b : hex_of a b -> Forall ascii a.
Proof.
  induction 1; [constructor|]. constructor; [apply digit_ascii, nib_hi|].
  constructor; [apply digit_ascii, nib_lo|assumption].
Qed.

Lemma hex_of_utf8 a b : hex_of a b -> lenN (utf8 a) = 2 * lenN b.
Proof.
  intros H. unfold lenN. rewrite ascii_length by (eapply hex_of_ascii, H). rewrite (hex_of_length _ _ H). lia.
Qed.

Lemma remove_whitespace_app a b : remove_whitespace (a ++ b) = remove_whitespace a ++ remove_whitespace b.
Proof. apply filter_app. Qed.

Lemma remove_whitespace_length t : (length (remove_whitespace t) <= length t)%nat.
Proof.
  unfold remove_whitespace. induction t as [|c t IH]; [apply le_n|]. cbn [filter].
  destruct (negb (is_whitespace c)); cbn [length]; lia.
Qed.

Lemma remove_whitespace_idem t : remove_whitespace (remove_whitespace t) = remove_whitespace t.
Proof.
  unfold remove_whitespace. induction t as [|c t IH]; [reflexivity|]. cbn [filter].
  destruct (negb (is_whitespace c)) eqn:W; [cbn [filter]; rewrite W; now rewrite IH|exact IH].
Qed.

Lemma remove_whitespace_split a b : remove_whitespace (a ++ b) = a ++ b ->
  remove_whitespace a = a /\ remove_whitespace b = b.
Proof.
  intros E. rewrite remove_whitespace_app in E.
  pose proof (remove_whitespace_length a). pose proof (remove_whitespace_length b).
  assert (length (remove_whitespace a) = length a) as La.
  { apply (f_equal (@length _)) in E. rewrite !app_length in E. lia. }
  pose proof (f_equal (firstn (length a)) E) as F. rewrite firstn_app_exact in F. rewrite <- La, firstn_app_exact in F.
  split; [exact F|]. rewrite F in E. apply app_inv_head in E. exact E.
Qed.

Lemma try_parse_hex_spells sha t skip b : try_parse_hex sha t skip = Ok b -> exists a, spaced a t /\ hex_of a b.
Proof.
  unfold try_parse_hex. destruct skip.
  - destruct (try_parse_hex_string t) eqn:P; cbn [map_err]; intros H; try discriminate H. injection H as <-.
    apply parse_sound, P.
  - unfold try_parse_hex_string_checksummed. destruct (try_parse_hex_string t) eqn:P; cbn [bind map_err]; intros H; try discriminate H.
    destruct (negb _); cbn [map_err] in H; [discriminate H|]. injection H as <-. apply parse_sound, P.
Qed.

Lemma parse_hex_no_panic t : forall acc cnt, parse_hex_loop t acc cnt <> Panic.
Proof.
  induction t as [|c t IH]; intros acc cnt; cbn [parse_hex_loop]; [destruct (0 <? cnt); discriminate|].
  destruct (_ && _); [apply IH|]. destruct (hex_value c); [|discriminate].
  destruct (cnt + 1 =? 2); [|apply IH]. specialize (IH 0 0). destruct (parse_hex_loop t 0 0); cbn [bind]; congruence.
Qed.

Lemma try_parse_hex_no_panic sha t skip : try_parse_hex sha t skip <> Panic.
Proof.
  unfold try_parse_hex, try_parse_hex_string_checksummed, try_parse_hex_string. pose proof (parse_hex_no_panic t 0 0) as P.
  destruct skip, (parse_hex_loop t 0 0); cbn [map_err bind]; try congruence. destruct (negb _); cbn [map_err]; congruence.
Qed.

Lemma from_hex32_no_panic sha t skip : from_hex32 sha t skip <> Panic.
Proof.
  unfold from_hex32. pose proof (try_parse_hex_no_panic sha t skip). destruct (try_parse_hex sha t skip); cbn [bind]; try congruence.
  destruct (_ =? _); congruence.
Qed.

Lemma from_hex32_length sha t skip k : from_hex32 sha t skip = Ok k -> length k = 32%nat.
Proof.
  unfold from_hex32. intros H. apply bind_ok in H as (b & _ & H). destruct (N.eqb_spec (lenN b) 32) as [L|]; [|discriminate H].
  injection H as <-. unfold lenN in L. lia.
Qed.

(** The two halves of a private key line. *)
Lemma half_length sha t skip k : remove_whitespace t = t -> lenN (utf8 t) = 64 ->
  try_parse_hex sha t skip = Ok k -> lenN k = 32 /\ hex_of t k.
Proof.
  intros W L H. destruct (try_parse_hex_spells _ _ _ _ H) as (a & Sa & Ha).
  rewrite (spaced_remove a t Sa (hex_of_nospace _ _ Ha)) in W. subst a.
  rewrite (hex_of_utf8 _ _ Ha) in L. split; [lia|assumption].
Qed.

Definition cuts_character (n : N) (t : text) : Prop := ~ exists a b, t = a ++ b /\ lenN (utf8 a) = n.

Lemma split_at_panic {E} n t : @split_at_byte E n t = Panic <-> cuts_character n t.
Proof.
  split.
  - intros H (a & b & -> & L). rewrite <- L, split_at_app in H. discriminate H.
  - intros C. destruct (@split_at_byte E n t) as [[a b]|e|] eqn:S; [|exfalso; exact (split_at_not_err _ _ _ S)|reflexivity].
    exfalso. apply C. exists a, b. apply split_at_ok in S. exact S.
Qed.

Lemma from_hex64_cases sha line skip :
  lenN (utf8 (remove_whitespace line)) = 128 ->
  (cuts_character 64 (remove_whitespace line) /\ from_hex64_private_key sha line skip = Panic) \/
  (exists a b, remove_whitespace line = a ++ b /\ lenN (utf8 a) = 64 /\ lenN (utf8 b) = 64 /\
     remove_whitespace a = a /\ remove_whitespace b = b /\
     from_hex64_private_key sha line skip =
       let* x := try_parse_hex sha a skip in let* y := try_parse_hex sha b skip in Ok (x ++ y)).
Proof.
  intros L. unfold from_hex64_private_key. rewrite L. change (128 =? 128) with true. cbn [ensure bind].
  destruct (@split_at_byte cerr 64 (remove_whitespace line)) as [[a b]|e|] eqn:S.
  - right. exists a, b. apply split_at_ok in S as [E La]. split; [exact E|]. split; [exact La|].
    assert (lenN (utf8 b) = 64) as Lb.
    { rewrite E, utf8_app in L. unfold lenN in *. rewrite app_length in L. lia. }
    split; [exact Lb|].
    destruct (remove_whitespace_split a b) as [Wa Wb]; [rewrite <- E; apply remove_whitespace_idem|].
    split; [exact Wa|]. split; [exact Wb|]. cbn [bind].
    destruct (try_parse_hex sha a skip) as [x|e|] eqn:Px; [|reflexivity|reflexivity]. cbn [bind].
    destruct (try_parse_hex sha b skip) as [y|e|] eqn:Py; [|reflexivity|reflexivity]. cbn [bind].
    destruct (half_length _ _ _ _ Wa La Px) as [-> _]. destruct (half_length _ _ _ _ Wb Lb Py) as [-> _]. reflexivity.
  - exfalso. exact (split_at_not_err _ _ _ S).
  - left. split; [apply (@split_at_panic cerr), S|reflexivity].
Qed.

Lemma from_hex64_short sha line skip : lenN (utf8 (remove_whitespace line)) <> 128 ->
  from_hex64_private_key sha line skip = Err CPrivateKeyLength.
Proof. intros N. unfold from_hex64_private_key. rewrite (proj2 (N.eqb_neq _ _)) by assumption. reflexivity. Qed.

Lemma from_hex64_panic sha line skip :
  from_hex64_private_key sha line skip = Panic <->
  lenN (utf8 (remove_whitespace line)) = 128 /\ cuts_character 64 (remove_whitespace line).
Proof.
  destruct (N.eq_dec (lenN (utf8 (remove_whitespace line))) 128) as [L|L].
  - destruct (from_hex64_cases sha line skip L) as [[C ->]|(a & b & E & La & Lb & Wa & Wb & ->)].
    + split; [intros _; split; assumption|reflexivity].
    + split.
      * intros H. exfalso. pose proof (try_parse_hex_no_panic sha a skip). pose proof (try_parse_hex_no_panic sha b skip).
        destruct (try_parse_hex sha a skip); cbn [bind] in H; try congruence.
        destruct (try_parse_hex sha b skip); cbn [bind] in H; congruence.
      * intros [_ C]. exfalso. apply C. exists a, b. split; assumption.
  - rewrite from_hex64_short by assumption. split; [discriminate|]. intros [? _]. contradiction.
Qed.

Lemma ascii_not_cut t n : Forall ascii t -> n <= lenN (utf8 t) -> ~ cuts_character n t.
Proof.
  intros A L C. apply C. exists (firstn (N.to_nat n) t), (skipn (N.to_nat n) t).
  split; [symmetry; apply firstn_skipn|].
  assert (Forall ascii (firstn (N.to_nat n) t)) as Af.
  { apply Forall_forall. intros x I. rewrite Forall_forall in A. eapply A, in_firstn, I. }
  unfold lenN in *. rewrite (ascii_length _ Af). rewrite (ascii_length _ A) in L. rewrite firstn_length. lia.
Qed.

Lemma remove_whitespace_ascii t : Forall ascii t -> Forall ascii (remove_whitespace t).
Proof. intros A. unfold remove_whitespace. apply Forall_forall. intros x I. apply filter_In in I as [I _]. rewrite Forall_forall in A. auto. Qed.

Lemma from_hex64_ascii sha line skip : Forall ascii line -> from_hex64_private_key sha line skip <> Panic.
Proof.
  intros A H. apply from_hex64_panic in H as [L C]. revert C. apply ascii_not_cut; [now apply remove_whitespace_ascii|lia].
Qed.

Lemma from_hex64_length sha line skip k : from_hex64_private_key sha line skip = Ok k ->
  length k = 64%nat /\ hex_of (remove_whitespace line) k.
Proof.
  intros H. destruct (N.eq_dec (lenN (utf8 (remove_whitespace line))) 128) as [L|L].
  - destruct (from_hex64_cases sha line skip L) as [[C E]|(a & b & E & La & Lb & Wa & Wb & E')]; [congruence|].
    rewrite E' in H. apply bind_ok in H as (x & Px & H). apply bind_ok in H as (y & Py & H). injection H as <-.
    destruct (half_length _ _ _ _ Wa La Px) as [Lx Hx]. destruct (half_length _ _ _ _ Wb Lb Py) as [Ly Hy].
    split; [rewrite app_length; unfold lenN in *; lia|]. rewrite E.
    clear - Hx Hy. induction Hx; [exact Hy|]. cbn [app]. constructor. exact IHHx.
  - rewrite from_hex64_short in H by assumption. discriminate H.
Qed.

(** ** Reading back written keys *)

Lemma hex_of_app a x b y : hex_of a x -> hex_of b y -> hex_of (a ++ b) (x ++ y).
Proof. intros Hx Hy. induction Hx; [exact Hy|]. cbn [app]. constructor. exact IHHx. Qed.

Lemma hex_of_spaced a b : hex_of a b -> spaced a a.
Proof. induction 1; constructor; assumption. Qed.

Lemma parse_written sha b skip : sha b <> [] ->
  try_parse_hex sha (to_hex_string_checksummed sha b) skip = Ok b.
Proof.
  intros N. rewrite checksummed_model by assumption. pose proof (checksummed_spells (sha b) b) as H.
  unfold try_parse_hex. destruct skip.
  - rewrite (parse_complete _ _ _ (hex_of_spaced _ _ H) H). reflexivity.
  - rewrite (proj2 (checksummed_exact sha _ b N) (hex_of_spaced _ _ H)). reflexivity.
Qed.

Lemma written_spells sha b : sha b <> [] -> hex_of (to_hex_string_checksummed sha b) b.
Proof. intros N. rewrite checksummed_model by assumption. apply checksummed_spells. Qed.

Lemma read_public sha b skip : sha b <> [] -> length b = 32%nat ->
  from_hex32 sha (to_hex_string_checksummed sha b) skip = Ok b.
Proof.
  intros N L. unfold from_hex32. rewrite parse_written by assumption. cbn [bind]. unfold lenN. rewrite L. reflexivity.
Qed.

Lemma read_private sha a b skip : sha a <> [] -> sha b <> [] -> length a = 32%nat -> length b = 32%nat ->
  from_hex64_private_key sha (to_hex_string_checksummed sha a ++ to_hex_string_checksummed sha b) skip = Ok (a ++ b).
Proof.
  intros Na Nb La Lb. pose proof (written_spells sha a Na) as Ha. pose proof (written_spells sha b Nb) as Hb.
  unfold from_hex64_private_key. rewrite (hex_of_nospace _ _ (hex_of_app _ _ _ _ Ha Hb)).
  rewrite (hex_of_utf8 _ _ (hex_of_app _ _ _ _ Ha Hb)). unfold lenN at 1. rewrite app_length, La, Lb.
  change (2 * N.of_nat (32 + 32) =? 128) with true. cbn [ensure bind].
  pose proof (hex_of_utf8 _ _ Ha) as Ua. unfold lenN at 2 in Ua. rewrite La in Ua. change (2 * N.of_nat 32) with 64 in Ua.
  rewrite <- Ua, split_at_app. cbn [bind]. rewrite !parse_written by assumption. cbn [bind].
  unfold lenN. rewrite La, Lb. reflexivity.
Qed.

(** ** Files *)

Lemma filter_lines l : (forall x, In x l -> x <> []) ->
  filter (fun l : text => match l with [] => false | _ => true end) l = l.
Proof.
  induction l as [|x l IH]; intros H; [reflexivity|]. cbn [filter].
  destruct x as [|c x]; [exfalso; apply (H []); [now left|reflexivity]|].
  rewrite IH; [reflexivity|]. intros y I. apply H. now right.
Qed.

Definition solid (l : text) : Prop := l <> [] /\ Forall ascii l /\ forall c, In c l -> is_whitespace c = false.

Lemma hex_of_solid a b : hex_of a b -> b <> [] -> solid a.
Proof.
  intros H N. split; [intros ->; inversion H; congruence|]. split; [exact (hex_of_ascii _ _ H)|].
  induction H; [intros c []|]. intros c [<-|[<-|I]].
  - apply digit_not_space, nib_hi.
  - apply digit_not_space, nib_lo.
  - destruct b as [|y b]; [inversion H; subst; destruct I|]. apply IHhex_of; [discriminate|exact I].
Qed.

Lemma lines_of_solid ls : (forall l, In l ls -> solid l) ->
  map trim (lines (concat (map (fun l => l ++ [10]) ls))) = ls.
Proof.
  induction ls as [|l ls IH]; intros H; [reflexivity|]. cbn [map concat]. rewrite <- app_assoc. cbn [app].
  destruct (H l (or_introl eq_refl)) as (N & A & W).
  assert (forall c, c = 10 \/ c = 13 -> ~ In c l) as NI.
  { intros c [->| ->] I; apply W in I; discriminate I. }
  rewrite lines_cons by (apply NI; now left). rewrite drop_cr_id by (apply NI; now right). cbn [map].
  rewrite trim_id by exact W. rewrite IH; [reflexivity|]. intros x I. apply H. now right.
Qed.

Lemma map_out_map {E A B} (f : text -> outcome E B) (g : A -> text) (h : A -> B) l :
  (forall a, In a l -> f (g a) = Ok (h a)) -> map_out f (map g l) = Ok (map h l).
Proof.
  induction l as [|a l IH]; intros H; [reflexivity|]. cbn [map map_out]. rewrite H by now left. cbn [bind].
  rewrite IH; [reflexivity|]. intros x I. apply H. now right.
Qed.

Lemma read_lines {A B} (f : text -> outcome cerr B) (g : A -> text) (h : A -> B) l :
  l <> [] -> (forall a, In a l -> solid (g a)) -> (forall a, In a l -> f (g a) = Ok (h a)) ->
  read_file_lines (Some (utf8 (concat (map (fun a => g a ++ [10]) l)))) f = Ok (map h l).
Proof.
  intros N S R. unfold read_file_lines.
  assert (concat (map (fun a => g a ++ [10]) l) = concat (map (fun l => l ++ [10]) (map g l))) as E by (now rewrite map_map).
  assert (forall x, In x (map g l) -> solid x) as Sm by (intros x I; apply in_map_iff in I as (a & <- & I); auto).
  rewrite from_utf8_utf8.
  - cbn [bind]. rewrite E, lines_of_solid by exact Sm. rewrite filter_lines by (intros x I; apply (Sm x I)).
    rewrite (map_out_map f g h) by exact R. cbn [bind]. destruct l; [congruence|]. reflexivity.
  - apply ascii_scalar. clear R E Sm N. induction l as [|a l IH]; [constructor|]. cbn [map concat].
    apply Forall_app. split; [|apply IH; intros x I; apply S; now right].
    apply Forall_app. split; [apply S; now left|]. constructor; [reflexivity|constructor].
Qed.

(** ** No other panics *)

Lemma from_utf8_ascii b : Forall (fun x => b2n x < 128) b -> exists t, from_utf8 b = Valid t /\ Forall ascii t.
Proof.
  induction 1 as [|x b Hx Hb (t & E & A)]; [exists []; split; [reflexivity|constructor]|].
  exists (b2n x :: t). rewrite from_utf8_step. cbv zeta. rewrite (proj2 (N.ltb_lt _ _)) by exact Hx. rewrite E.
  split; [reflexivity|]. constructor; assumption.
Qed.

Lemma split_line_ascii t : forall a r, split_line t = (a, r) -> Forall ascii t ->
  Forall ascii a /\ match r with Some r => Forall ascii r | None => True end.
Proof.
  induction t as [|c t IH]; intros a r E A; cbn [split_line] in E.
  - injection E as <- <-. split; constructor.
  - inversion A; subst. destruct (c =? 10); [injection E as <- <-; split; [constructor|assumption]|].
    destruct (split_line t) as [a' r']. injection E as <- <-. destruct (IH _ _ eq_refl H2). split; [constructor; assumption|assumption].
Qed.

Lemma rev_ascii t : Forall ascii t -> Forall ascii (rev t).
Proof. intros A. apply Forall_forall. intros x I. rewrite Forall_forall in A. apply A, in_rev, I. Qed.

Lemma drop_cr_ascii t : Forall ascii t -> Forall ascii (drop_cr t).
Proof.
  intros A. unfold drop_cr. destruct (rev t) as [|c r] eqn:E; [assumption|]. destruct (c =? 13); [|assumption].
  apply rev_ascii. apply rev_ascii in A. rewrite E in A. now inversion A.
Qed.

Lemma lines_ascii fuel : forall t, Forall ascii t -> Forall (Forall ascii) (lines_fuel fuel t).
Proof.
  induction fuel as [|fuel IH]; intros t A; [constructor|]. cbn [lines_fuel]. destruct t as [|c t]; [constructor|].
  destruct (split_line (c :: t)) as [a r] eqn:E. destruct (split_line_ascii _ _ _ E A) as [Aa Ar].
  destruct r as [r|]; constructor; try (now apply drop_cr_ascii); [auto|constructor].
Qed.

Lemma trim_start_ascii t : Forall ascii t -> Forall ascii (trim_start t).
Proof. induction 1; cbn [trim_start]; [constructor|]. destruct (is_whitespace x); [assumption|constructor; assumption]. Qed.

Lemma map_out_no_panic {E A B} (f : A -> outcome E B) l : (forall a, In a l -> f a <> Panic) -> map_out f l <> Panic.
Proof.
  induction l as [|a l IH]; intros H; cbn [map_out]; [discriminate|].
  pose proof (H a (or_introl eq_refl)). destruct (f a); cbn [bind]; try congruence.
  assert (map_out f l <> Panic) by (apply IH; intros x I; apply H; now right).
  destruct (map_out f l); cbn [bind]; congruence.
Qed.

Lemma read_file_no_panic {A} content (f : text -> outcome cerr A) :
  (forall b t l, content = Some b -> from_utf8 b = Valid t -> In l (map trim (lines t)) -> f l <> Panic) ->
  read_file_lines content f <> Panic.
Proof.
  intros H. unfold read_file_lines. destruct content as [b|]; [|discriminate].
  destruct (from_utf8 b) as [t| |] eqn:U; cbn [bind]; try discriminate.
  assert (map_out f (filter (fun l : text => match l with [] => false | _ => true end) (map trim (lines t))) <> Panic) as M.
  { apply map_out_no_panic. intros l I. apply filter_In in I as [I _]. exact (H b t l eq_refl U I). }
  destruct (map_out f _) as [r|e|]; cbn [bind]; try congruence. destruct r; discriminate.
Qed.

Lemma private_file_no_panic sha skip b : Forall (fun x => b2n x < 128) b ->
  read_file_lines (Some b) (private_key_line sha skip) <> Panic.
Proof.
  intros A. apply read_file_no_panic. intros b' t l E U I. injection E as <-.
  destruct (from_utf8_ascii b A) as (t' & U' & At). rewrite U in U'. injection U' as <-.
  apply in_map_iff in I as (x & <- & I). unfold lines in I. pose proof (lines_ascii (length t) t At) as Al.
  rewrite Forall_forall in Al. specialize (Al x I).
  unfold private_key_line. pose proof (from_hex64_ascii sha (trim x) skip) as P.
  destruct (from_hex64_private_key sha (trim x) skip); cbn [bind]; try discriminate.
  intros _. apply P; [|reflexivity]. unfold trim. apply rev_ascii, trim_start_ascii, rev_ascii, trim_start_ascii, Al.
Qed.

(** Proofs about key files that end too early (C93). *)
From Coq.Strings Require Import Byte.
From Coq Require Import List NArith Bool PeanoNat Lia.
From Verif Require Import Base BaseFacts Text TextProofs TextProofs2 Util UtilProofs UtilSpec CliErrors Crypto HeaderCrypto KeyFiles CliProofs3 Fs TruncSpec.
Import ListNotations.
Local Open Scope N_scope.

Lemma decode_prefix a b t t' : from_utf8 (a ++ b) = Valid t -> from_utf8 a = Valid t' -> starts t' t.
Proof.
  intros H H'. destruct (decode_sound _ _ H') as [S E]. rewrite <- E, (decode_text _ _ S) in H. destruct (from_utf8 b) as [u| |] eqn:Eb.
  - rewrite fold_add_char in H. injection H as <-. exists u. reflexivity.
  - exfalso. revert t H. clear. induction t' as [|c t' IH]; cbn [fold_right]; intros t H; [discriminate H|]. destruct (fold_right _ _ t') eqn:E; cbn in H; try discriminate H. exact (IH _ eq_refl).
  - exfalso. revert t H. clear. induction t' as [|c t' IH]; cbn [fold_right]; intros t H; [discriminate H|]. destruct (fold_right _ _ t') eqn:E; cbn in H; try discriminate H. exact (IH _ eq_refl).
Qed.

(** ** Trimming *)

Lemma trim_start_split u : exists w, u = w ++ trim_start u /\ Forall (fun c => is_whitespace c = true) w.
Proof.
  induction u as [|c u IH]; cbn [trim_start]; [exists []; auto|]. destruct (is_whitespace c) eqn:E; [|exists []; auto].
  destruct IH as (w & Ew & F). exists (c :: w). split; [cbn; congruence|auto].
Qed.
Lemma trim_start_head u : match trim_start u with c :: _ => is_whitespace c = false | [] => True end.
Proof. induction u as [|c u IH]; cbn [trim_start]; [exact I|]. destruct (is_whitespace c) eqn:E; [exact IH|exact E]. Qed.
Lemma trim_start_app u v : trim_start (u ++ v) = match trim_start u with [] => trim_start v | a => a ++ v end.
Proof. induction u as [|c u IH]; cbn [trim_start app]; [reflexivity|]. destruct (is_whitespace c); [exact IH|reflexivity]. Qed.
Lemma trim_start_solid u v : match v with c :: _ => is_whitespace c = false | [] => True end -> trim_start (u ++ v) = trim_start u ++ v.
Proof.
  intros H. rewrite trim_start_app. destruct (trim_start u); [|reflexivity]. destruct v as [|c v]; [reflexivity|]. cbn [trim_start app]. rewrite H. reflexivity.
Qed.
Lemma trim_prefix p r : starts (trim p) (trim (p ++ r)).
Proof.
  unfold trim. rewrite trim_start_app. destruct (trim_start p) as [|c a]; [exists (rev (trim_start (rev (trim_start r)))); reflexivity|]. set (a' := c :: a). clearbody a'.
  destruct (trim_start_split (rev a')) as (w & Ew & _). pose proof (trim_start_head (rev a')) as Hh. set (u := trim_start (rev a')) in *.
  rewrite rev_app_distr, Ew, app_assoc, (trim_start_solid _ u Hh), rev_app_distr. exists (rev (trim_start (rev r ++ w))). reflexivity.
Qed.
Lemma trim_drop_cr l : trim (drop_cr l) = trim l.
Proof.
  unfold drop_cr. destruct (rev l) as [|c r] eqn:E; [reflexivity|]. destruct (N.eqb_spec c 13) as [->|_]; [|reflexivity].
  assert (l = rev r ++ [13]) as -> by (rewrite <- (rev_involutive l), E; reflexivity). unfold trim. rewrite trim_start_app. destruct (trim_start (rev r)) as [|c a]; [reflexivity|].
  rewrite rev_app_distr. reflexivity.
Qed.

(** ** Lines *)

Definition entries_of (t : text) : list text := filter (fun l => match l with [] => false | _ => true end) (map trim (lines t)).
Lemma split_line_none t a : split_line t = (a, None) -> a = t /\ ~ In 10 t.
Proof.
  revert a. induction t as [|c t IH]; cbn [split_line]; intros a H; [injection H as <-; auto|]. destruct (N.eqb_spec c 10) as [->|N]; [discriminate H|].
  destruct (split_line t) as [b [r|]] eqn:E; [discriminate H|]. injection H as <-. destruct (IH b eq_refl) as [-> I]. split; [reflexivity|]. intros [X|X]; auto.
Qed.
Lemma split_line_some t a r : split_line t = (a, Some r) -> t = a ++ 10 :: r /\ ~ In 10 a.
Proof.
  revert a. induction t as [|c t IH]; cbn [split_line]; intros a H; [discriminate H|]. destruct (N.eqb_spec c 10) as [->|N]; [injection H as <- <-; auto|].
  destruct (split_line t) as [b [r'|]] eqn:E; [|discriminate H]. injection H as <- <-. destruct (IH b eq_refl) as [-> I]. split; [reflexivity|]. intros [X|X]; auto.
Qed.
Lemma lines_last t : ~ In 10 t -> lines t = match t with [] => [] | _ => [drop_cr t] end.
Proof.
  intros N. unfold lines. destruct t as [|c t]; [reflexivity|]. cbn [length lines_fuel]. destruct (split_line (c :: t)) as [a [r|]] eqn:E.
  - apply split_line_some in E as [E _]. exfalso. apply N. rewrite E. apply in_or_app. right. left. reflexivity.
  - apply split_line_none in E as [-> _]. reflexivity.
Qed.
Lemma entries_cons l rest : ~ In 10 l -> entries_of (l ++ 10 :: rest) = match trim l with [] => [] | x => [x] end ++ entries_of rest.
Proof. intros N. unfold entries_of. rewrite (lines_cons _ _ N). cbn [map filter]. rewrite trim_drop_cr. destruct (trim l); reflexivity. Qed.
Lemma entries_last l : ~ In 10 l -> entries_of l = match trim l with [] => [] | x => [x] end.
Proof.
  intros N. unfold entries_of. rewrite (lines_last _ N). destruct l as [|c l]; [reflexivity|]. cbn [map filter]. rewrite trim_drop_cr. destruct (trim (c :: l)); reflexivity.
Qed.
(** The entries of a text that ends too early are those of the whole text; the last may be cut. *)
Lemma entries_prefix n : forall p r, (length p <= n)%nat ->
  starts (entries_of p) (entries_of (p ++ r)) \/ exists a x z b, entries_of p = a ++ [x] /\ entries_of (p ++ r) = a ++ (x ++ z) :: b.
Proof.
  induction n as [|n IH]; intros p r L.
  - destruct p; [|cbn in L; lia]. left. exists (entries_of r). reflexivity.
  - destruct (split_line p) as [l [rest|]] eqn:E.
    + apply split_line_some in E as [-> N]. rewrite <- app_assoc. cbn [app]. rewrite !(entries_cons _ _ N). rewrite app_length in L. cbn [length] in L.
      destruct (IH rest r ltac:(lia)) as [[b Eb]|(a & x & z & b & E1 & E2)].
      * left. exists b. rewrite Eb, app_assoc. reflexivity.
      * right. exists (match trim l with [] => [] | x => [x] end ++ a), x, z, b. rewrite E1, E2, !app_assoc. auto.
    + apply split_line_none in E as [-> N]. rewrite (entries_last p N).
      assert (K : exists r1 b, entries_of (p ++ r) = match trim (p ++ r1) with [] => [] | x => [x] end ++ b).
      { destruct (split_line r) as [r1 [r2|]] eqn:E.
        - apply split_line_some in E as [-> N1]. exists r1, (entries_of r2). rewrite app_assoc, entries_cons; [reflexivity|]. intros I. apply in_app_or in I as [I|I]; auto.
        - apply split_line_none in E as [-> N1]. exists r, []. rewrite app_nil_r. apply entries_last. intros I. apply in_app_or in I as [I|I]; auto. }
      destruct K as (r1 & b & ->). destruct (trim p) as [|c y] eqn:Ep; [left; eexists; reflexivity|].
      destruct (trim_prefix p r1) as (z & Ez). rewrite Ez, Ep. right. exists [], (c :: y), z, b. split; reflexivity.
Qed.

(** ** Keys *)

Definition stable (f : text -> outcome cerr cred) : Prop := forall x z c c', f x = Ok c -> f (x ++ z) = Ok c' -> c = c'.
Lemma remove_app a b : remove_whitespace (a ++ b) = remove_whitespace a ++ remove_whitespace b.
Proof. unfold remove_whitespace. apply filter_app. Qed.
Lemma hex_stable sha512 skip x z b b' : try_parse_hex sha512 x skip = Ok b -> try_parse_hex sha512 (x ++ z) skip = Ok b' -> length b = length b' -> b = b'.
Proof.
  intros H H' L. assert (K : forall t k, try_parse_hex sha512 t skip = Ok k -> try_parse_hex_string t = Ok k).
  { intros t k P. unfold try_parse_hex in P. destruct skip.
    - destruct (try_parse_hex_string t); try discriminate P. injection P as <-. reflexivity.
    - unfold try_parse_hex_string_checksummed in P. destruct (try_parse_hex_string t); cbn in P; try discriminate P. destruct (negb _) in P; try discriminate P. injection P as <-. reflexivity. }
  apply K, parse_sound in H as (a & S & A). apply K, parse_sound in H' as (a' & S' & A').
  pose proof (spaced_remove _ _ S (hex_of_nospace _ _ A)) as E. pose proof (spaced_remove _ _ S' (hex_of_nospace _ _ A')) as E'. rewrite remove_app, E in E'.
  assert (Ln : length a = length a') by (rewrite (hex_of_length _ _ A), (hex_of_length _ _ A'); lia).
  rewrite <- E', app_length in Ln. destruct (remove_whitespace z) as [|c w]; [|cbn in Ln; lia]. rewrite app_nil_r in E'. subst a'. exact (hex_of_inj _ _ _ A A').
Qed.
Lemma hex32_stable sha512 skip x z b b' : from_hex32 sha512 x skip = Ok b -> from_hex32 sha512 (x ++ z) skip = Ok b' -> b = b'.
Proof.
  unfold from_hex32. destruct (try_parse_hex sha512 x skip) as [k| |] eqn:E; cbn; try discriminate. destruct (N.eqb_spec (lenN k) 32) as [L|]; [|discriminate]. intros [= <-].
  destruct (try_parse_hex sha512 (x ++ z) skip) as [k'| |] eqn:E'; cbn; try discriminate. destruct (N.eqb_spec (lenN k') 32) as [L'|]; [|discriminate]. intros [= <-].
  apply (hex_stable _ _ _ _ _ _ E E'). unfold lenN in *. lia.
Qed.
Lemma hex64_stable sha512 skip x z b b' : from_hex64_private_key sha512 x skip = Ok b -> from_hex64_private_key sha512 (x ++ z) skip = Ok b' -> b = b'.
Proof.
  intros H H'. assert (remove_whitespace z = []) as E.
  { unfold from_hex64_private_key in *. rewrite remove_app, utf8_app in H'. destruct (N.eqb_spec (lenN (utf8 (remove_whitespace x))) 128) as [L|]; [|discriminate H].
    destruct (N.eqb_spec (lenN (utf8 (remove_whitespace x) ++ utf8 (remove_whitespace z))) 128) as [L'|]; [|discriminate H'].
    unfold lenN in *. rewrite app_length in L'. pose proof (utf8_length_ge (remove_whitespace z)). destruct (remove_whitespace z); [reflexivity|cbn [length] in *; lia]. }
  unfold from_hex64_private_key in H'. rewrite remove_app, E, app_nil_r in H'. pose proof (eq_trans (eq_sym H) H') as X. injection X as ->. reflexivity.
Qed.
Lemma keys_stable sha512 f : reads_keys sha512 f -> stable f.
Proof.
  intros [->|(skip & [->| ->])] x z c c' H H'.
  - unfold symmetric_key_line in *. destruct (from_hex32 sha512 x true) eqn:E; try discriminate H. destruct (from_hex32 sha512 (x ++ z) true) eqn:E'; try discriminate H'.
    injection H as <-. injection H' as <-. f_equal. exact (hex32_stable _ _ _ _ _ _ E E').
  - unfold public_key_line in *. destruct (from_hex32 sha512 x skip) eqn:E; try discriminate H. destruct (from_hex32 sha512 (x ++ z) skip) eqn:E'; try discriminate H'.
    injection H as <-. injection H' as <-. f_equal. exact (hex32_stable _ _ _ _ _ _ E E').
  - unfold private_key_line in *. destruct (from_hex64_private_key sha512 x skip) eqn:E; try discriminate H. destruct (from_hex64_private_key sha512 (x ++ z) skip) eqn:E'; try discriminate H'.
    injection H as <-. injection H' as <-. f_equal. exact (hex64_stable _ _ _ _ _ _ E E').
Qed.

Lemma forall2_fun {A B} (R : A -> B -> Prop) a : (forall x y z, R x y -> R x z -> y = z) -> forall l l', Forall2 R a l -> Forall2 R a l' -> l = l'.
Proof. intros F. induction a as [|x a IH]; intros l l' H H'; inversion H; inversion H'; subst; [reflexivity|]. f_equal; [eapply F; eassumption|apply IH; assumption]. Qed.
Lemma read_inv {A} content (f : text -> outcome cerr A) creds : read_file_lines content f = Ok creds ->
  exists b t, content = Some b /\ from_utf8 b = Valid t /\ Forall2 (fun a b => f a = Ok b) (entries_of t) creds /\ creds <> [].
Proof.
  unfold read_file_lines. intros H. destruct content as [b|]; [|discriminate H]. destruct (from_utf8 b) as [t| |] eqn:E; try discriminate H. cbn [bind] in H.
  destruct (map_out f _) as [k| |] eqn:M; try discriminate H. cbn [bind] in H. exists b, t. split; [reflexivity|]. split; [exact E|].
  destruct k as [|c k]; [discriminate H|]. injection H as <-. split; [apply map_out_forall2, M|discriminate].
Qed.
Lemma truncated f a b creds creds' : stable f -> read_file_lines (Some (a ++ b)) f = Ok creds -> read_file_lines (Some a) f = Ok creds' -> starts creds' creds.
Proof.
  intros S H H'. destruct (read_inv _ _ _ H) as (x & t & [= <-] & E & F & _). destruct (read_inv _ _ _ H') as (x & t' & [= <-] & E' & F' & _).
  destruct (decode_prefix _ _ _ _ E E') as (r & ->).
  assert (Fn : forall x (y z : cred), f x = Ok y -> f x = Ok z -> y = z) by congruence.
  destruct (entries_prefix _ t' r (le_n _)) as [[rest Er]|(p & y & z & q & E1 & E2)].
  - rewrite Er in F. apply Forall2_app_inv_l in F as (l1 & l2 & F1 & _ & ->). exists l2. rewrite (forall2_fun _ _ Fn _ _ F' F1). reflexivity.
  - rewrite E1 in F'. rewrite E2 in F. apply Forall2_app_inv_l in F as (l1 & l2 & F1 & F2 & ->). apply Forall2_app_inv_l in F' as (m1 & m2 & G1 & G2 & ->).
    inversion F2 as [|y1 c' q1 l3 Fc _]; subst. inversion G2 as [|y2 c q2 l4 Gc G3]; subst. inversion G3; subst. exists l3.
    rewrite (forall2_fun _ _ Fn _ _ G1 F1), <- app_assoc. cbn [app]. rewrite (S _ _ _ _ Gc Fc). reflexivity.
Qed.

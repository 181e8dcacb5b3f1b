(** Proofs about the parser of credential arguments (C36, C37). *)
From Coq.Strings Require Import Byte String.
From Coq Require Import List NArith Bool PeanoNat Lia.
From Verif Require Import Base BaseFacts Text Util CliErrors Getopts Crypto HeaderCrypto CredSpec KeyFiles Ui CliCreds CliSpec.
Import ListNotations.
Local Open Scope N_scope.

Lemma bind_ok {A B} (m : act A) (f : A -> act B) u b u' :
  bind_act m f u = (Ok b, u') <-> exists a u1, m u = (Ok a, u1) /\ f a u1 = (Ok b, u').
Proof.
  unfold bind_act. split.
  - destruct (m u) as [[a|e|] u1]; intros H; try discriminate H. eauto.
  - intros (a & u1 & -> & H). exact H.
Qed.
Lemma ensure_ok c e u a u' : ensure_act c e u = (Ok a, u') <-> c = true /\ a = tt /\ u' = u.
Proof.
  unfold ensure_act, lift, ensure. destruct c; split.
  - intros [= <- <-]. auto.
  - intros (_ & -> & ->). reflexivity.
  - discriminate.
  - intros (H & _). discriminate H.
Qed.
Lemma ensure_true e {B} (f : unit -> act B) u : bind_act (ensure_act true e) f u = f tt u.
Proof. reflexivity. Qed.
Lemma lift_ok {A} (x : outcome cerr A) u a u' : lift x u = (Ok a, u') <-> x = Ok a /\ u' = u.
Proof. unfold lift. split; [intros [= -> ->]; auto|intros [-> ->]; reflexivity]. Qed.
Lemma ret_ok {A} (x : A) u a u' : ret x u = (Ok a, u') <-> x = a /\ u' = u.
Proof. unfold ret. split; [intros [= -> ->]; auto|intros [-> ->]; reflexivity]. Qed.

Lemma total_app a b : total_shares (a ++ b) = total_shares a + total_shares b.
Proof. unfold total_shares. induction a as [|x a IH]; cbn [app fold_right]; [reflexivity|]. rewrite IH. lia. Qed.
Lemma total_map n (cs : list cred) : total_shares (map (fun c => (n, c)) cs) = n * lenN cs.
Proof.
  unfold lenN, total_shares. induction cs as [|c cs IH]; cbn [map fold_right length fst]; [lia|]. rewrite IH. lia.
Qed.
Lemma total_one n (c : cred) : total_shares [(n, c)] = n.
Proof. unfold total_shares. cbn. lia. Qed.

Lemma pow64 : 2 ^ 64 = two64. Proof. reflexivity. Qed.
Lemma wrap64_id n : n < two64 -> wrap64 n = n.
Proof. intros H. unfold wrap64. apply N.mod_small, H. Qed.
Lemma wrap64_add a b : wrap64 (wrap64 a + b) = wrap64 (a + b).
Proof. unfold wrap64. apply N.add_mod_idemp_l. discriminate. Qed.
Lemma wrap64_add_r a b : wrap64 (a + wrap64 b) = wrap64 (a + b).
Proof. unfold wrap64. apply N.add_mod_idemp_r. discriminate. Qed.

Section WithEnvironment.
Variable sha512 : bytes -> bytes.
Variable files : text -> option bytes.

Notation parse_loop := (parse_loop sha512 files).
Notation read_token := (read_token sha512 files).
Notation members_stand_for := (members_stand_for sha512 files).
Notation stands_for := (stands_for sha512 files).

(** One round of the loop. *)
Lemma loop_nil fuel d sk lvl st u :
  parse_loop (S fuel) d sk lvl st [] u = (let+ c := lift (finish_group lvl false st) in ret (c, [])) u.
Proof. reflexivity. Qed.
Lemma loop_key fuel d sk lvl st t ts u : key_token t ->
  parse_loop (S fuel) d sk lvl st (t :: ts) u =
  (let+ creds := read_token d sk t in let+ st := add_creds st creds in parse_loop fuel d sk lvl st ts) u.
Proof.
  intros K. destruct t; try destruct K; cbn [CliCreds.parse_loop decrypt_allowed key_shares_allowed]; rewrite !orb_true_r; reflexivity.
Qed.

Definition with_threshold (st : parse_state) (th : option threshold_type) : parse_state :=
  mkState (p_sub_creds st) (p_num_shares st) (p_next_key_shares st) th.
Definition with_next (st : parse_state) (n : N) : parse_state :=
  mkState (p_sub_creds st) (p_num_shares st) n (p_threshold st).

Definition threshold_of (t : token) : option threshold_type :=
  match t with RequireAllKeys => Some AllKeys | KeyThreshold n => Some (Threshold n) | _ => None end.

Lemma loop_threshold fuel sk lvl st t ts th u : threshold_of t = Some th ->
  parse_loop (S fuel) Encrypt sk lvl st (t :: ts) u =
  (let+ _ := ensure_act (p_next_key_shares st =? 1) CSharesNotFollowedByKey in
   let+ _ := ensure_act (match p_threshold st with None => true | Some _ => false end) CManyThresholds in
   parse_loop fuel Encrypt sk lvl (with_threshold st (Some th)) ts) u.
Proof. destruct t; try discriminate; intros [= <-]; cbn [CliCreds.parse_loop key_shares_allowed]; rewrite !orb_false_r; reflexivity. Qed.

Lemma loop_shares fuel sk lvl st n ts u :
  parse_loop (S fuel) Encrypt sk lvl st (KeyShares n :: ts) u =
  (let+ _ := ensure_act (p_next_key_shares st =? 1) CSharesNotFollowedByKey in
   let+ _ := ensure_act (0 <? n) CZeroShares in
   parse_loop fuel Encrypt sk lvl (with_next st n) ts) u.
Proof. cbn [CliCreds.parse_loop key_shares_allowed]. rewrite !orb_false_r. reflexivity. Qed.

Lemma loop_start fuel sk lvl st ts u :
  parse_loop (S fuel) Encrypt sk lvl st (StartGroup :: ts) u =
  (let+ (subkeys, ts) := parse_loop fuel Encrypt sk (S lvl) initial_state ts in
   let+ st := add_creds st [subkeys] in parse_loop fuel Encrypt sk lvl st ts) u.
Proof. cbn [CliCreds.parse_loop key_shares_allowed]. cbn [is_encrypt orb]; rewrite ?orb_true_r. reflexivity. Qed.

Lemma loop_end fuel sk lvl st ts u :
  parse_loop (S fuel) Encrypt sk lvl st (EndGroup :: ts) u =
  (let+ _ := ensure_act (p_next_key_shares st =? 1) CSharesNotFollowedByKey in
   let+ c := lift (finish_group lvl true st) in ret (c, ts)) u.
Proof. cbn [CliCreds.parse_loop key_shares_allowed]. rewrite !orb_false_r. reflexivity. Qed.

(** ** Soundness *)

Lemma finish_inv lvl eg st c : finish_group lvl eg st = Ok c ->
  eg = negb (lvl =? 0)%nat /\
  0 < p_num_shares st /\
  1 <= needed (p_threshold st) (p_num_shares st) <= p_num_shares st /\
  c = Complex (p_sub_creds st) (p_num_shares st) (needed (p_threshold st) (p_num_shares st)).
Proof.
  unfold finish_group, ensure, bind. intros H.
  destruct (lvl =? 0)%nat, eg; cbn [andb negb] in H; try discriminate H; (split; [reflexivity|]);
  destruct (N.ltb_spec 0 (p_num_shares st)); try discriminate H;
  change (match p_threshold st with None => 1 | Some (Threshold n) => n | Some AllKeys => p_num_shares st end)
    with (needed (p_threshold st) (p_num_shares st)) in H;
  destruct (N.ltb_spec 0 (needed (p_threshold st) (p_num_shares st))); try discriminate H;
  destruct (N.leb_spec (needed (p_threshold st) (p_num_shares st)) (p_num_shares st)); try discriminate H;
  injection H as <-; repeat split; lia || assumption.
Qed.

Lemma finish_run lvl st : 0 < p_num_shares st ->
  1 <= needed (p_threshold st) (p_num_shares st) <= p_num_shares st ->
  finish_group lvl (negb (lvl =? 0)%nat) st =
  Ok (Complex (p_sub_creds st) (p_num_shares st) (needed (p_threshold st) (p_num_shares st))).
Proof.
  intros A [B C]. unfold finish_group, ensure, bind.
  change (match p_threshold st with None => 1 | Some (Threshold n) => n | Some AllKeys => p_num_shares st end)
    with (needed (p_threshold st) (p_num_shares st)).
  rewrite (proj2 (N.ltb_lt _ _) A), (proj2 (N.leb_le _ _) C), (proj2 (N.ltb_lt 0 _)) by lia.
  destruct (lvl =? 0)%nat; reflexivity.
Qed.

Definition either (a b : option threshold_type) : option threshold_type := match a with Some _ => a | None => b end.
Definition pending_shares (n : N) (ts : list token) : list token := if n =? 1 then ts else KeyShares n :: ts.

Definition all_fit (l : list (N * cred)) : Prop := fold_right and True (map (fun p => fits (snd p)) l).
Lemma all_fit_app a b : all_fit (a ++ b) <-> all_fit a /\ all_fit b.
Proof. unfold all_fit. induction a as [|x a IH]; cbn; [tauto|]. rewrite IH. tauto. Qed.

Lemma add_creds_ok st cs u st' u' : add_creds st cs u = (Ok st', u') <->
  cs <> [] /\ u' = u /\
  st' = mkState (p_sub_creds st ++ map (fun c => (p_next_key_shares st, c)) cs)
        (wrap64 (p_num_shares st + wrap64 (p_next_key_shares st * lenN cs))) 1 (p_threshold st).
Proof.
  unfold add_creds. rewrite bind_ok. split.
  - intros (a & u1 & H1 & H2). apply ensure_ok in H1 as (H1 & -> & ->). apply ret_ok in H2 as [<- ->].
    destruct cs; [discriminate H1|]. repeat split. discriminate.
  - intros (H1 & -> & ->). exists tt, u. destruct cs; [contradiction|]. split; reflexivity.
Qed.

Lemma spells_one top n ts th m t : 1 <= n -> key_token t -> spells top th m ts ->
  spells top th (MKey n t m) (pending_shares n (t :: ts)).
Proof.
  intros L K S. unfold pending_shares. destruct (N.eqb_spec n 1) as [->|D]; [constructor; assumption|].
  apply sp_key_shares; [lia|assumption|assumption].
Qed.
Lemma spells_group_one top n ts th m th' m' ts' : 1 <= n -> spells false th' m' ts' -> spells top th m ts ->
  spells top th (MGroup n (Group th' m') m) (pending_shares n (StartGroup :: ts' ++ EndGroup :: ts)).
Proof.
  intros L K S. unfold pending_shares. destruct (N.eqb_spec n 1) as [->|D]; [constructor; assumption|].
  apply sp_group_shares; [lia|assumption|assumption].
Qed.


Lemma either_none a : either a None = a.
Proof. destruct a; reflexivity. Qed.

Lemma loop_sound fuel : forall sk lvl st ts u c rest u',
  parse_loop fuel Encrypt sk lvl st ts u = (Ok (c, rest), u') -> 1 <= p_next_key_shares st -> p_num_shares st < two64 -> fits c ->
  exists th m subs ts0,
    spells (lvl =? 0)%nat th m (pending_shares (p_next_key_shares st) ts0) /\
    ts = ts0 ++ (if (lvl =? 0)%nat then [] else EndGroup :: rest) /\ ((lvl =? 0)%nat = true -> rest = []) /\
    members_stand_for sk u m u' subs /\
    (p_threshold st <> None -> th = None) /\
    let num := wrap64 (p_num_shares st + total_shares subs) in
    let th := either (p_threshold st) th in
    0 < num /\ 1 <= needed th num <= num /\ c = Complex (p_sub_creds st ++ subs) num (needed th num).
Proof.
  induction fuel as [|fuel IH]; intros sk lvl st ts u c rest u' H Ln Lw F; [discriminate H|].
  destruct ts as [|t ts].
  { rewrite loop_nil in H. apply bind_ok in H as (a & u1 & H1 & H2). apply lift_ok in H1 as [H1 ->].
    apply ret_ok in H2 as [[= <- <-] ->]. apply finish_inv in H1 as (E & A & B & ->).
    destruct (lvl =? 0)%nat eqn:El; [|discriminate E].
    exists None, MNil, [], []. rewrite !app_nil_r. cbn zeta. rewrite either_none. change (total_shares []) with 0. rewrite N.add_0_r, wrap64_id by assumption.
    split; [|repeat split; try constructor; try assumption; try apply B].
    unfold pending_shares. destruct (N.eqb_spec (p_next_key_shares st) 1); [constructor|]. apply sp_trailing. lia. }
  assert (Hkey : key_token t -> exists th m subs ts0,
    spells (lvl =? 0)%nat th m (pending_shares (p_next_key_shares st) ts0) /\
    t :: ts = ts0 ++ (if (lvl =? 0)%nat then [] else EndGroup :: rest) /\ ((lvl =? 0)%nat = true -> rest = []) /\
    members_stand_for sk u m u' subs /\
    (p_threshold st <> None -> th = None) /\
    let num := wrap64 (p_num_shares st + total_shares subs) in
    let th := either (p_threshold st) th in
    0 < num /\ 1 <= needed th num <= num /\ c = Complex (p_sub_creds st ++ subs) num (needed th num)).
  { intros K. rewrite loop_key in H by exact K.
    apply bind_ok in H as (cs & u1 & H1 & H). apply bind_ok in H as (st1 & u2 & H2 & H).
    apply add_creds_ok in H2 as (Ncs & -> & ->).
    destruct (IH _ _ _ _ _ _ _ _ H) as (th & m & subs & ts0 & S & E & E0 & V & T & R); cbn [p_next_key_shares p_num_shares p_threshold p_sub_creds] in *;
      [lia|unfold wrap64; apply N.mod_lt; discriminate|assumption|].
    exists th, (MKey (p_next_key_shares st) t m), (map (fun c => (p_next_key_shares st, c)) cs ++ subs), (t :: ts0).
    split; [apply spells_one; assumption|]. split; [rewrite E; reflexivity|]. split; [exact E0|].
    split; [econstructor; eassumption|]. split; [exact T|]. cbn zeta in R |- *.
    rewrite total_app, total_map. rewrite wrap64_add_r, wrap64_add in R. rewrite N.add_assoc, app_assoc. exact R. }
  assert (Hthr : forall th0, threshold_of t = Some th0 -> exists th m subs ts0,
    spells (lvl =? 0)%nat th m (pending_shares (p_next_key_shares st) ts0) /\
    t :: ts = ts0 ++ (if (lvl =? 0)%nat then [] else EndGroup :: rest) /\ ((lvl =? 0)%nat = true -> rest = []) /\
    members_stand_for sk u m u' subs /\
    (p_threshold st <> None -> th = None) /\
    let num := wrap64 (p_num_shares st + total_shares subs) in
    let th := either (p_threshold st) th in
    0 < num /\ 1 <= needed th num <= num /\ c = Complex (p_sub_creds st ++ subs) num (needed th num)).
  { intros th0 Et. rewrite (loop_threshold _ _ _ _ _ _ th0) in H by exact Et.
    apply bind_ok in H as (a & u1 & H1 & H). apply ensure_ok in H1 as (E1 & -> & ->).
    apply bind_ok in H as (b & u2 & H2 & H). apply ensure_ok in H2 as (E2 & -> & ->).
    destruct (p_threshold st) as [|] eqn:Ep; [discriminate E2|].
    destruct (IH _ _ _ _ _ _ _ _ H) as (th & m & subs & ts0 & S & E & E0 & V & T & R);
      unfold with_threshold in *; cbn [p_next_key_shares p_num_shares p_threshold p_sub_creds] in *; [assumption|assumption|assumption|].
    rewrite T in * by discriminate. cbn [either] in R.
    exists (Some th0), m, subs, (t :: ts0). unfold pending_shares in *. rewrite E1 in *.
    split; [destruct t; try discriminate Et; injection Et as <-; constructor; exact S|].
    split; [rewrite E; reflexivity|]. split; [exact E0|]. split; [exact V|]. split; [intros X; contradiction X; reflexivity|]. exact R. }
  destruct t; try (apply Hkey; exact I); try (eapply Hthr; reflexivity); clear Hkey Hthr.
  - (* KeyShares *)
    rewrite loop_shares in H.
    apply bind_ok in H as (a & u1 & H1 & H). apply ensure_ok in H1 as (E1 & -> & ->).
    apply bind_ok in H as (b & u2 & H2 & H). apply ensure_ok in H2 as (E2 & -> & ->). apply N.ltb_lt in E2.
    destruct (IH _ _ _ _ _ _ _ _ H) as (th & m & subs & ts0 & S & E & E0 & V & T & R);
      unfold with_next in *; cbn [p_next_key_shares p_num_shares p_threshold p_sub_creds] in *; [lia|assumption|assumption|].
    exists th, m, subs, (KeyShares n :: ts0). split.
    { unfold pending_shares in S |- *. rewrite E1. destruct (N.eqb_spec n 1) as [->|D]; [constructor; exact S|exact S]. }
    split; [rewrite E; reflexivity|]. auto.
  - (* StartGroup *)
    rewrite loop_start in H. apply bind_ok in H as ((sub & ts2) & u1 & H1 & H).
    apply bind_ok in H as (st1 & u2 & H2 & H). apply add_creds_ok in H2 as (_ & -> & ->).
    destruct (IH _ _ _ _ _ _ _ _ H) as (th & m & subs & ts0 & S & E & E0 & V & T & R); cbn [p_next_key_shares p_num_shares p_threshold p_sub_creds map] in *;
      [lia|unfold wrap64; apply N.mod_lt; discriminate|assumption|].
    cbn zeta in R. change (lenN [sub]) with 1 in R. rewrite N.mul_1_r, wrap64_add_r, wrap64_add in R.
    destruct R as (R1 & R2 & R3).
    assert (fits sub) as Fs.
    { rewrite R3 in F. destruct F as [_ F]. change (all_fit ((p_sub_creds st ++ [(p_next_key_shares st, sub)]) ++ subs)) in F.
      rewrite !all_fit_app in F. apply F. }
    destruct (IH _ _ _ _ _ _ _ _ H1) as (th' & m' & subs' & ts0' & S' & E' & _ & V' & T' & R'); cbn [p_next_key_shares p_num_shares p_threshold p_sub_creds initial_state] in *;
      [lia|reflexivity|exact Fs|].
    cbn zeta in R'. cbn [either Nat.eqb app] in R', E'. change (pending_shares 1 ts0') with ts0' in S'.
    destruct R' as (R1' & R2' & R3'). rewrite N.add_0_l in *.
    assert (total_shares subs' < two64) as Fit by (rewrite R3' in Fs; exact (proj1 Fs)).
    rewrite wrap64_id in * by exact Fit.
    exists th, (MGroup (p_next_key_shares st) (Group th' m') m), ((p_next_key_shares st, sub) :: subs), (StartGroup :: ts0' ++ EndGroup :: ts0).
    split; [apply spells_group_one; assumption|].
    split; [rewrite E', E; cbn [app]; rewrite <- app_assoc; reflexivity|]. split; [exact E0|].
    split.
    { econstructor; [|eassumption]. rewrite R3'. constructor; try assumption. intros ->. cbn in R1'. lia. }
    split; [exact T|]. cbn zeta. change ((p_next_key_shares st, sub) :: subs) with ([(p_next_key_shares st, sub)] ++ subs).
    rewrite total_app, total_one, N.add_assoc, app_assoc. auto.
  - (* EndGroup *)
    rewrite loop_end in H.
    apply bind_ok in H as (a & u1 & H1 & H). apply ensure_ok in H1 as (E1 & -> & ->).
    apply bind_ok in H as (b & u2 & H2 & H). apply lift_ok in H2 as [H2 ->].
    apply ret_ok in H as [[= <- <-] ->]. apply finish_inv in H2 as (E & A & B & ->).
    destruct (lvl =? 0)%nat eqn:El; [discriminate E|].
    exists None, MNil, [], []. cbn zeta. rewrite either_none, app_nil_r. change (total_shares []) with 0. rewrite N.add_0_r, wrap64_id by assumption.
    unfold pending_shares. rewrite E1. repeat split; try constructor; try discriminate; try assumption; try apply B.
Qed.

(** ** Completeness *)


Lemma loop_key_n fuel sk lvl st n t ts u : key_token t -> 1 < n -> p_next_key_shares st = 1 ->
  parse_loop (S (S fuel)) Encrypt sk lvl st (KeyShares n :: t :: ts) u =
  (let+ creds := read_token Encrypt sk t in let+ st := add_creds (with_next st n) creds in parse_loop fuel Encrypt sk lvl st ts) u.
Proof.
  intros K L E. rewrite loop_shares, E. cbn [N.eqb Pos.eqb]. rewrite ensure_true.
  rewrite (proj2 (N.ltb_lt 0 n)) by lia. rewrite ensure_true. apply loop_key, K.
Qed.

(** Key arguments never give an empty list of credentials. *)
Lemma read_file_nonempty {A} content (f : text -> outcome cerr A) l : read_file_lines content f = Ok l -> l <> [].
Proof.
  unfold read_file_lines, bind. destruct (match content with Some b => _ | None => _ end) as [s| |]; try discriminate.
  destruct (map_out f _) as [cs| |]; try discriminate. unfold ensure. destruct cs; [discriminate|]. intros [= <-]. discriminate.
Qed.
Lemma read_nonempty d sk t u cs u' : read_token d sk t u = (Ok cs, u') -> cs <> [].
Proof.
  destruct t; cbn [CliCreds.read_token]; intros H; try discriminate H;
    try (apply bind_ok in H as (a & u1 & H1 & H));
    try (apply bind_ok in H as (a' & u2 & H2 & H));
    try (apply ret_ok in H as [<- _]; discriminate);
    try (apply lift_ok in H as [H _]; exact (read_file_nonempty _ _ _ H)).
Qed.

Definition extend (st : parse_state) (subs : list (N * cred)) (th : option threshold_type) : parse_state :=
  mkState (p_sub_creds st ++ subs) (p_num_shares st + total_shares subs) 1 (either (p_threshold st) th).

(** The end of a group. *)
Lemma loop_close fuel sk lvl subs th rest u : 0 < total_shares subs ->
  1 <= needed th (total_shares subs) <= total_shares subs ->
  parse_loop (S fuel) Encrypt sk (S lvl) (with_next (extend initial_state subs th) 1) (EndGroup :: rest) u =
  (Ok (Complex subs (total_shares subs) (needed th (total_shares subs)), rest), u).
Proof.
  intros A B. rewrite loop_end. change (p_next_key_shares (with_next (extend initial_state subs th) 1) =? 1) with true. rewrite ensure_true.
  unfold bind_act, lift. change true with (negb (S lvl =? 0)%nat). rewrite finish_run by assumption. reflexivity.
Qed.

(** The loop gets through the arguments that spell the members. *)
Lemma loop_complete top th m ts : spells top th m ts -> forall sk lvl st u u' subs rest fuel,
  members_stand_for sk u m u' subs -> p_next_key_shares st = 1 -> (p_threshold st <> None -> th = None) ->
  p_num_shares st + total_shares subs < two64 -> (length (ts ++ rest) < fuel)%nat -> (top = true -> rest = []) ->
  exists fuel' n, (length rest < fuel')%nat /\ (top = false -> n = 1) /\
    parse_loop fuel Encrypt sk lvl st (ts ++ rest) u = parse_loop fuel' Encrypt sk lvl (with_next (extend st subs th) n) rest u'.
Proof.
  assert (Hid : forall st, p_next_key_shares st = 1 -> p_num_shares st < two64 -> with_next (extend st [] None) 1 = st).
  { intros [a b c d] E L. cbn in E. subst c. unfold extend, with_next. cbn. rewrite app_nil_r, N.add_0_r, either_none. reflexivity. }
  induction 1 as [top|top th m ts t K S IH|top th m ts n t Ln K S IH|top th m ts th' m' ts' S' IH' S IH
    |top th m ts n th' m' ts' Ln S' IH' S IH|top m ts S IH|top m ts n S IH|top th m ts S IH|n Ln];
    intros sk lvl st u u' subs rest fuel V En Et Lf Fu Tr.
  - inversion V; subst. exists fuel, 1. split; [exact Fu|]. split; [reflexivity|]. cbn [app]. rewrite Hid; [reflexivity|exact En|]. cbn in Lf. lia.
  - inversion V as [|? ? ? ? u1 ? cs subs' Hr Hm|]; subst. cbn [app length] in *. destruct fuel as [|fuel]; [lia|].
    rewrite loop_key by exact K. unfold bind_act at 1. rewrite Hr. unfold bind_act at 1.
    rewrite (proj2 (add_creds_ok _ _ _ _ _)) by (split; [eapply read_nonempty; exact Hr|split; reflexivity]).
    rewrite total_app, total_map in Lf. rewrite En, N.mul_1_l in *.
    rewrite (wrap64_id (lenN cs)), wrap64_id by lia.
    match goal with |- context [parse_loop fuel Encrypt sk lvl ?s (ts ++ rest) u1] =>
      destruct (IH sk lvl s u1 u' subs' rest fuel) as (f' & n' & A & B & C); cbn [p_next_key_shares p_num_shares p_threshold]; try assumption; try lia end.
    exists f', n'. split; [exact A|]. split; [exact B|]. rewrite C. f_equal. unfold extend, with_next.
    cbn [p_sub_creds p_num_shares p_next_key_shares p_threshold]. rewrite <- app_assoc, total_app, total_map, N.mul_1_l, N.add_assoc. reflexivity.
  - inversion V as [|? ? ? ? u1 ? cs subs' Hr Hm|]; subst. cbn [app length] in *. destruct fuel as [|[|fuel]]; [lia|lia|].
    rewrite loop_key_n by assumption. unfold bind_act at 1. rewrite Hr. unfold bind_act at 1.
    rewrite (proj2 (add_creds_ok _ _ _ _ _)) by (split; [eapply read_nonempty; exact Hr|split; reflexivity]).
    unfold with_next at 1 2 3 4 5. cbn [p_sub_creds p_num_shares p_next_key_shares p_threshold].
    rewrite total_app, total_map in Lf.
    rewrite (wrap64_id (n * lenN cs)), wrap64_id by lia.
    match goal with |- context [parse_loop fuel Encrypt sk lvl ?s (ts ++ rest) u1] =>
      destruct (IH sk lvl s u1 u' subs' rest fuel) as (f' & n' & A & B & C); cbn [p_next_key_shares p_num_shares p_threshold]; try assumption; try lia end.
    exists f', n'. split; [exact A|]. split; [exact B|]. rewrite C. f_equal. unfold extend, with_next.
    cbn [p_sub_creds p_num_shares p_next_key_shares p_threshold]. rewrite <- app_assoc, total_app, total_map, N.add_assoc. reflexivity.
  - inversion V as [| |? ? ? ? u1 ? c subs' Hg Hm]; subst. inversion Hg as [? ? ? ? subs0 V0 N0 F0 T0]; subst.
    assert ((StartGroup :: ts' ++ EndGroup :: ts) ++ rest = StartGroup :: ts' ++ (EndGroup :: ts ++ rest)) as El
      by (cbn [app]; rewrite <- app_assoc; reflexivity).
    rewrite El in *. cbn [length] in Fu. destruct fuel as [|fuel]; [lia|]. rewrite loop_start.
    destruct (IH' sk (Datatypes.S lvl) initial_state u u1 subs0 (EndGroup :: ts ++ rest) fuel V0 eq_refl ltac:(intros X; contradiction X; reflexivity)
      F0 ltac:(lia) ltac:(discriminate)) as (f0 & n0 & A0 & B0 & C0).
    unfold bind_act at 1. rewrite C0, (B0 eq_refl). destruct f0 as [|f0]; [lia|].
    rewrite loop_close by (lia || assumption).
    cbv beta iota. unfold bind_act at 1.
    rewrite (proj2 (add_creds_ok _ _ _ _ _)) by (split; [discriminate|split; reflexivity]).
    rewrite En. cbn [map lenN length]. change (N.of_nat 1) with 1.
    change ((1, Complex subs0 (total_shares subs0) (needed th' (total_shares subs0))) :: subs') with
      ([(1, Complex subs0 (total_shares subs0) (needed th' (total_shares subs0)))] ++ subs') in Lf.
    rewrite total_app, total_one in Lf.
    change (wrap64 (1 * lenN [Complex subs0 (total_shares subs0) (needed th' (total_shares subs0))])) with 1. rewrite wrap64_id by lia.
    rewrite app_length in Fu. cbn [length] in Fu.
    match goal with |- context [parse_loop fuel Encrypt sk lvl ?s (ts ++ rest) u1] =>
      destruct (IH sk lvl s u1 u' subs' rest fuel) as (f' & n' & A & B & C); cbn [p_next_key_shares p_num_shares p_threshold]; try assumption; try lia end.
    exists f', n'. split; [exact A|]. split; [exact B|]. rewrite C. f_equal. unfold extend, with_next.
    cbn [p_sub_creds p_num_shares p_next_key_shares p_threshold]. 
    match goal with |- context [total_shares (?x :: subs')] => change (x :: subs') with ([x] ++ subs') end.
    rewrite <- app_assoc, total_app, total_one, N.add_assoc. reflexivity.
  - inversion V as [| |? ? ? ? u1 ? c subs' Hg Hm]; subst. inversion Hg as [? ? ? ? subs0 V0 N0 F0 T0]; subst.
    assert ((KeyShares n :: StartGroup :: ts' ++ EndGroup :: ts) ++ rest = KeyShares n :: StartGroup :: ts' ++ (EndGroup :: ts ++ rest)) as El
      by (cbn [app]; rewrite <- app_assoc; reflexivity).
    rewrite El in *. cbn [length] in Fu. destruct fuel as [|[|fuel]]; [lia|lia|].
    rewrite loop_shares, En. cbn [N.eqb Pos.eqb]. rewrite ensure_true.
    rewrite (proj2 (N.ltb_lt 0 n)) by lia. rewrite ensure_true. rewrite loop_start.
    destruct (IH' sk (Datatypes.S lvl) initial_state u u1 subs0 (EndGroup :: ts ++ rest) fuel V0 eq_refl ltac:(intros X; contradiction X; reflexivity)
      F0 ltac:(lia) ltac:(discriminate)) as (f0 & n0 & A0 & B0 & C0).
    unfold bind_act at 1. rewrite C0, (B0 eq_refl). destruct f0 as [|f0]; [lia|].
    rewrite loop_close by (lia || assumption).
    cbv beta iota. unfold bind_act at 1.
    rewrite (proj2 (add_creds_ok _ _ _ _ _)) by (split; [discriminate|split; reflexivity]).
    unfold with_next at 1 2 3 4 5. cbn [map lenN length p_sub_creds p_num_shares p_next_key_shares p_threshold].
    change ((n, Complex subs0 (total_shares subs0) (needed th' (total_shares subs0))) :: subs') with
      ([(n, Complex subs0 (total_shares subs0) (needed th' (total_shares subs0)))] ++ subs') in Lf.
    rewrite total_app, total_one in Lf.
    change (lenN [Complex subs0 (total_shares subs0) (needed th' (total_shares subs0))]) with 1. rewrite N.mul_1_r.
    rewrite (wrap64_id n), wrap64_id by lia.
    rewrite app_length in Fu. cbn [length] in Fu.
    match goal with |- context [parse_loop fuel Encrypt sk lvl ?s (ts ++ rest) u1] =>
      destruct (IH sk lvl s u1 u' subs' rest fuel) as (f' & n' & A & B & C); cbn [p_next_key_shares p_num_shares p_threshold]; try assumption; try lia end.
    exists f', n'. split; [exact A|]. split; [exact B|]. rewrite C. f_equal. unfold extend, with_next.
    cbn [p_sub_creds p_num_shares p_next_key_shares p_threshold]. 
    match goal with |- context [total_shares (?x :: subs')] => change (x :: subs') with ([x] ++ subs') end.
    rewrite <- app_assoc, total_app, total_one, N.add_assoc. reflexivity.
  - cbn [app length] in *. destruct fuel as [|fuel]; [lia|].
    rewrite (loop_threshold _ _ _ _ RequireAllKeys _ AllKeys) by reflexivity. rewrite En. cbn [N.eqb Pos.eqb]. rewrite ensure_true.
    destruct (p_threshold st) as [x|] eqn:Ep; [discriminate (Et ltac:(discriminate))|]. rewrite ensure_true.
    destruct (IH sk lvl (with_threshold st (Some AllKeys)) u u' subs rest fuel) as (f' & n' & A & B & C); try assumption; [reflexivity|lia|].
    exists f', n'. split; [exact A|]. split; [exact B|]. rewrite C. unfold extend, with_next, with_threshold. cbn. rewrite Ep. reflexivity.
  - cbn [app length] in *. destruct fuel as [|fuel]; [lia|].
    rewrite (loop_threshold _ _ _ _ (KeyThreshold n) _ (Threshold n)) by reflexivity. rewrite En. cbn [N.eqb Pos.eqb]. rewrite ensure_true.
    destruct (p_threshold st) as [x|] eqn:Ep; [discriminate (Et ltac:(discriminate))|]. rewrite ensure_true.
    destruct (IH sk lvl (with_threshold st (Some (Threshold n))) u u' subs rest fuel) as (f' & n' & A & B & C); try assumption; [reflexivity|lia|].
    exists f', n'. split; [exact A|]. split; [exact B|]. rewrite C. unfold extend, with_next, with_threshold. cbn. rewrite Ep. reflexivity.
  - cbn [app length] in *. destruct fuel as [|fuel]; [lia|].
    rewrite loop_shares, En. cbn [N.eqb Pos.eqb]. rewrite ensure_true. cbn [N.ltb N.compare]. rewrite ensure_true.
    destruct (IH sk lvl (with_next st 1) u u' subs rest fuel) as (f' & n' & A & B & C); try assumption; [reflexivity|lia|].
    exists f', n'. split; [exact A|]. split; [exact B|]. rewrite C. reflexivity.
  - inversion V; subst. rewrite (Tr eq_refl) in *. cbn [app length] in *. destruct fuel as [|[|fuel]]; [lia|lia|].
    rewrite loop_shares, En. cbn [N.eqb Pos.eqb]. rewrite ensure_true. rewrite (proj2 (N.ltb_lt 0 n)) by lia. rewrite ensure_true.
    exists (S fuel), n. split; [cbn; lia|]. split; [discriminate|]. unfold with_next, extend. cbn. rewrite app_nil_r, N.add_0_r, either_none. reflexivity.
Qed.

(** ** The parser as a whole *)

Lemma parse_sound sk ts u c u' : parse_complex_credential sha512 files Encrypt sk ts u = (Ok c, u') -> fits c ->
  exists th m, spells true th m ts /\ stands_for sk u (Group th m) u' c.
Proof.
  unfold parse_complex_credential. intros H F. apply bind_ok in H as ((c0 & rest) & u1 & H & H2). apply ret_ok in H2 as [-> ->].
  destruct (loop_sound _ _ _ _ _ _ _ _ _ H) as (th & m & subs & ts0 & S & E & E0 & V & T & R); [cbn; lia|reflexivity|exact F|].
  cbn [initial_state p_next_key_shares p_num_shares p_threshold p_sub_creds Nat.eqb either app] in *. cbn zeta in R. rewrite N.add_0_l in R.
  change (pending_shares 1 ts0) with ts0 in S. rewrite app_nil_r in E. subst ts0.
  destruct R as (R1 & R2 & ->). pose proof (proj1 F) as Fit. rewrite pow64 in Fit.
  rewrite wrap64_id in * by exact Fit. exists th, m. split; [exact S|]. constructor; try assumption. intros ->. cbn in R1. lia.
Qed.

Lemma members_positive top th m ts : spells top th m ts -> forall sk u u' subs,
  members_stand_for sk u m u' subs -> Forall (fun p => 1 <= fst p) subs.
Proof.
  induction 1; intros sk u u' subs V; inversion V; subst; eauto; try (constructor; fail).
  - apply Forall_app. split; [|eauto]. apply Forall_map, Forall_forall. cbn. lia.
  - apply Forall_app. split; [|eauto]. apply Forall_map, Forall_forall. cbn. lia.
  - constructor; [cbn; lia|eauto].
  - constructor; [cbn; lia|eauto].
Qed.

Lemma total_positive subs : subs <> [] -> Forall (fun p => 1 <= fst p) subs -> 0 < total_shares subs.
Proof. intros N F. destruct subs as [|[n c] subs]; [contradiction|]. inversion F; subst. unfold total_shares. cbn in *. lia. Qed.

Lemma parse_complete sk ts u c u' th m : spells true th m ts -> stands_for sk u (Group th m) u' c ->
  parse_complex_credential sha512 files Encrypt sk ts u = (Ok c, u').
Proof.
  intros S V. inversion V as [? ? ? ? subs V0 N0 F0 T0]; subst.
  destruct (loop_complete _ _ _ _ S sk 0%nat initial_state u u' subs [] (Datatypes.S (length ts)) V0 eq_refl
    ltac:(intros X; contradiction X; reflexivity) F0 ltac:(rewrite app_nil_r; lia) ltac:(reflexivity)) as (f' & n & A & B & C).
  rewrite app_nil_r in C. unfold parse_complex_credential. unfold bind_act. rewrite C. destruct f' as [|f']; [cbn in A; lia|].
  rewrite loop_nil. unfold with_next, extend, initial_state. cbn [p_next_key_shares p_num_shares p_threshold p_sub_creds app either].
  rewrite N.add_0_l. unfold bind_act, lift, ret. change false with (negb (0 =? 0)%nat).
  rewrite finish_run; [reflexivity| |exact T0]. cbn [p_num_shares]. lia.
Qed.

(** Nothing but well-formed expressions. *)
Lemma map_out_forall {A B} (f : A -> outcome cerr B) (P : B -> Prop) l k :
  (forall a b, f a = Ok b -> P b) -> map_out f l = Ok k -> Forall P k.
Proof.
  intros H. revert k. induction l as [|a l IH]; cbn [map_out]; intros k E; [injection E as <-; constructor|].
  unfold bind in E. destruct (f a) as [b| |] eqn:Eb; try discriminate E. destruct (map_out f l) as [bs| |]; try discriminate E.
  injection E as <-. constructor; [eapply H; exact Eb|auto].
Qed.
Lemma read_file_forall {B} content (f : text -> outcome cerr B) (P : B -> Prop) k :
  (forall a b, f a = Ok b -> P b) -> read_file_lines content f = Ok k -> Forall P k.
Proof.
  intros H. unfold read_file_lines, bind. destruct (match content with Some b => _ | None => _ end) as [s| |]; try discriminate.
  destruct (map_out f _) as [cs| |] eqn:E; try discriminate. unfold ensure. destruct cs; [discriminate|]. intros [= <-].
  eapply map_out_forall; eassumption.
Qed.

Definition is_password (c : cred) : Prop := match c with Password _ => True | _ => False end.
Lemma password_loop_password fuel : forall d msg u c u', password_loop fuel d msg u = (Ok c, u') -> is_password c.
Proof.
  induction fuel as [|fuel IH]; intros d msg u c u' H; [discriminate H|]. cbn [password_loop] in H.
  apply bind_ok in H as (p & u1 & _ & H). destruct (text_eqb p []).
  - apply bind_ok in H as (a & u2 & _ & H). eauto.
  - apply bind_ok in H as (b & u2 & _ & H). destruct b; apply bind_ok in H as (a & u3 & _ & H); [|eauto].
    apply ret_ok in H as [<- _]. exact I.
Qed.
Lemma interactive_password d n u c u' : read_password_interactively d n u = (Ok c, u') -> is_password c.
Proof.
  unfold read_password_interactively. destruct (negb (can_read u)); [discriminate|]. apply password_loop_password.
Qed.

Lemma read_kinds d sk t u cs u' : read_token d sk t u = (Ok cs, u') ->
  Forall (fun c => match c with
    | Password _ | SymmetricKey _ => True
    | PublicKey _ => d = Encrypt | PrivateKey _ => d = Decrypt
    | Complex _ _ _ => False end) cs.
Proof.
  intros H. destruct t; cbn [CliCreds.read_token] in H; try discriminate H.
  - apply bind_ok in H as (c & u1 & H & H2). apply ret_ok in H2 as [<- _]. apply interactive_password in H. constructor; [|constructor]. now destruct c.
  - apply bind_ok in H as (c & u1 & H & H2). apply ret_ok in H2 as [<- _]. apply interactive_password in H. constructor; [|constructor]. now destruct c.
  - apply lift_ok in H as [H _]. eapply read_file_forall; [|exact H]. intros a b [= <-]. exact I.
  - apply lift_ok in H as [H _]. eapply read_file_forall; [|exact H]. intros a b E. unfold symmetric_key_line, bind in E.
    destruct (from_hex32 _ _ _); try discriminate E. injection E as <-. exact I.
  - apply bind_ok in H as (a & u1 & H1 & H). apply ensure_ok in H1 as (Ed & _ & ->). apply lift_ok in H as [H _].
    eapply read_file_forall; [|exact H]. intros x b E. unfold public_key_line, bind in E.
    destruct (from_hex32 _ _ _); try discriminate E. injection E as <-. destruct d; [reflexivity|discriminate Ed].
  - apply bind_ok in H as (a & u1 & H1 & H). apply ensure_ok in H1 as (Ed & _ & ->). apply bind_ok in H as (c & u2 & H & H2). apply ret_ok in H2 as [<- _].
    apply lift_ok in H as [E _]. unfold public_key_line, bind in E.
    destruct (from_hex32 _ _ _); try discriminate E. injection E as <-. constructor; [|constructor]. destruct d; [reflexivity|discriminate Ed].
  - apply bind_ok in H as (a & u1 & H1 & H). apply ensure_ok in H1 as (Ed & _ & ->). apply lift_ok in H as [H _].
    eapply read_file_forall; [|exact H]. intros x b E. unfold private_key_line, bind in E.
    destruct (from_hex64_private_key _ _ _); try discriminate E. injection E as <-. destruct d; [discriminate Ed|reflexivity].
Qed.

Lemma stands_for_wf top th m ts : spells top th m ts -> forall sk u u' subs,
  members_stand_for sk u m u' subs -> Forall (fun p : N * cred => wf_cred (snd p)) subs.
Proof.
  assert (forall sk t n u u1 cs, read_token Encrypt sk t u = (Ok cs, u1) -> Forall (fun p : N * cred => wf_cred (snd p)) (map (fun c => (n, c)) cs)) as K.
  { intros sk t n u u1 cs H. apply Forall_map. apply read_kinds in H. eapply Forall_impl; [|exact H].
    intros [| | | |] E; cbn in *; try constructor; try discriminate E; destruct E. }
  induction 1; intros sk u u' subs V; inversion V; subst; eauto; try (constructor; fail).
  - apply Forall_app. split; eauto.
  - apply Forall_app. split; eauto.
  - constructor; [|eauto]. match goal with G : stands_for _ _ _ _ _ |- _ => inversion G; subst end. cbn [snd]. constructor; eauto using members_positive.
  - constructor; [|eauto]. match goal with G : stands_for _ _ _ _ _ |- _ => inversion G; subst end. cbn [snd]. constructor; eauto using members_positive.
Qed.

End WithEnvironment.

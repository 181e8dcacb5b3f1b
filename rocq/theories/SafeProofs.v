(** Facts about command lines that name their files without ambiguity (C91). *)
From Coq.Strings Require Import Byte String.
From Coq Require Import List NArith ZArith Bool PeanoNat Lia.
From Verif Require Import Base BaseFacts Shamir Errors Io Text Util CliErrors Getopts Crypto HeaderCrypto Ui UiSpec Paths PathSpec PathProofs CliCreds Cli CliSpec OptSpec OptProofs CmdSpec CmdProofs
  Fs Commands FsSpec FsProofs FsProofs4 FsProofs2 FsProofs10 FlowSpec FlowProofs ForceSpec ForceProofs SafeSpec PropNames PropCommandLine PropFs PropForce.
Import ListNotations.
Local Open Scope N_scope.

(** ** The suffix *)

Lemma once_only args m o : parse_options args = Ok m -> may_repeat o = false -> In o all_opts -> opt_count m o <= 1.
Proof.
  intros P R I. unfold parse_options in P. destruct (parse_args 0 args) as [m'| |] eqn:E; cbn [bind] in P; [|discriminate P..].
  destruct (forallb _ all_opts) eqn:F; cbn [ensure bind] in P; [|discriminate P]. injection P as <-.
  rewrite forallb_forall in F. specialize (F o I). rewrite R in F. apply N.leb_le in F. exact F.
Qed.
Lemma suffix_is args occs free s : parse_options args = Ok (mkMatches occs free) -> suffix occs s -> get_encrypted_file_extension (mkMatches occs free) = s.
Proof.
  intros P Sx. assert (C : opt_count (mkMatches occs free) OSuffix <= 1) by (eapply once_only; [exact P|reflexivity|vm_compute; tauto]).
  assert (V : forall v, given_value OSuffix v occs -> opt_str (mkMatches occs free) OSuffix = Some v).
  { intros v (x & I & Eo & Ev). unfold opt_count, lenN, occs_of in C. unfold opt_str, opt_strs_pos, occs_of. cbn [m_occs] in *.
    assert (Ix : In x (filter (fun x => opt_eqb (o_opt x) OSuffix) occs)) by (apply filter_In; split; [exact I|rewrite Eo; reflexivity]).
    destruct (filter (fun x => opt_eqb (o_opt x) OSuffix) occs) as [|y [|z l]]; [destruct Ix| |cbn [length] in C; lia].
    destruct Ix as [->|[]]. cbn [flat_map]. rewrite Ev. reflexivity. }
  unfold get_encrypted_file_extension. destruct Sx as [[N ->]|[G|[G D]]].
  - apply (present_false occs free) in N. unfold opt_present in N. unfold opt_str, opt_strs_pos. destruct (occs_of (mkMatches occs free) OSuffix); [reflexivity|discriminate N].
  - rewrite (V _ G). reflexivity.
  - rewrite (V _ G). destruct s as [|c s]; [reflexivity|]. destruct (N.eq_dec c 46) as [->|Nc]; [destruct (D s eq_refl)|].
    destruct c as [|c]; [reflexivity|]. repeat (destruct c as [c|c|]; try reflexivity). contradiction.
Qed.

(** ** Names *)

Lemma plain_same f s b b' : plain_file f s b -> plain_file f s b' -> b = b'.
Proof. intros (i & E & N) (i' & E' & N'). congruence. Qed.
Lemma plain_intact f g s b : plain_file f s b -> intact f g s -> plain_file g s b.
Proof. intros (i & E & N) [A B]. exists i. rewrite A, (B i E). auto. Qed.
Lemma output_dec (entry_of : names) l e : is_output entry_of l e \/ ~ is_output entry_of l e.
Proof.
  induction l as [|st l [(a & q & I & K)|N]]; [right; intros (a & q & [] & _)|left; exists a, q; split; [right; exact I|exact K]|].
  destruct (s_output st) as [[q|]| |] eqn:Eo.
  1: destruct (entry_of q) as [t|] eqn:Et; [destruct (N.eq_dec t e) as [->|Ne]; [left; exists st, q; split; [left; reflexivity|auto]|]|].
  all: right; intros (a & q' & [<-|I] & Eo' & Et'); [congruence|apply N; exists a, q'; auto].
Qed.

Lemma same_result dir s p p' q : named_after dir s p q -> named_after dir s p' q -> p = p'.
Proof.
  unfold named_after, is_file. intros (d & n & A) (d' & n' & B). destruct dir; destruct A as [-> ->], B as [-> E]; apply app_inj_tail in E as [-> E].
  - injection E as E. apply app_inv_tail in E as ->. reflexivity.
  - injection E as ->. reflexivity.
Qed.

Section Env.
Variable entry_of : names.
Variables (m : opt_matches) (dir : crypt_direction) (force : bool) (streams : list io_stream) (s : text) (f : fs).
Hypothesis G : get_input_output_streams m dir force = Ok streams.
Hypothesis X : get_encrypted_file_extension m = s.
Hypothesis U : unambiguous entry_of f dir s (m_free m).
Hypothesis F : Forall2 (fun a st => s_input st = IFile (components a) /\ forall q, s_output st = Ok q -> exists p, q = OFile p) (m_free m) streams.

Lemma stream_of st : In st streams -> exists a, In a (m_free m) /\ s_input st = IFile (components a) /\ s_output st <> Ok OStdout.
Proof.
  clear U G. intros I. induction F as [|a st' l ss [Ei Eo] F' IH]; [destruct I|]. destruct I as [->|I].
  - exists a. split; [left; reflexivity|]. split; [exact Ei|]. intros E. destruct (Eo _ E) as (p & E'). discriminate E'.
  - destruct (IH F' I) as (b & Ib & K). exists b. split; [right; exact Ib|exact K].
Qed.
Lemma stream_for a : In a (m_free m) -> exists st, In st streams /\ s_input st = IFile (components a).
Proof.
  clear U G. intros I. induction F as [|b st l ss [Ei Eo] F' IH]; [destruct I|]. destruct I as [->|I].
  - exists st. split; [left; reflexivity|exact Ei].
  - destruct (IH F' I) as (x & Ix & K). exists x. split; [right; exact Ix|exact K].
Qed.
Lemma stream_result st a q : In st streams -> In a (m_free m) -> s_input st = IFile (components a) -> s_output st = Ok (OFile q) -> named_after dir s (components a) q.
Proof.
  intros I Ia Ei Eo. assert (I' : In (mkStream (IFile (components a)) (Ok (OFile q))) streams) by (destruct st; cbn in *; subst; exact I).
  destruct (un_names _ _ _ _ _ U a Ia) as (d & n & Fn & Nn). destruct (un_suffix _ _ _ _ _ U) as [S1 S2]. destruct dir.
  - exists d, n. split; [exact Fn|]. rewrite <- X in S1, S2 |- *. exact (C33_encrypted_name _ _ _ _ _ _ _ G I' Fn Nn S2 (or_introl S1)).
  - destruct (C33_decrypted_name _ _ _ _ _ G I') as (d' & n' & A & B & _ & D). rewrite X in A. exists d', n'. split; [exact A|].
    unfold is_file in A, Fn. rewrite Fn in A. apply app_inj_tail in A as [_ A]. injection A as A.
    apply D; [intros ->; apply Nn; rewrite A; exists s; reflexivity|intros ->; apply Nn; rewrite A; exists (lit "." ++ s); reflexivity].
Qed.
Lemma stream_place st p : In st streams -> s_input st = IFile p -> place dir s (m_free m) p.
Proof. intros I E. destruct (stream_of _ I) as (a & Ia & Ei & _). exists a. split; [exact Ia|]. left. congruence. Qed.
Lemma result_place st q : In st streams -> s_output st = Ok (OFile q) -> place dir s (m_free m) q.
Proof. intros I E. destruct (stream_of _ I) as (a & Ia & Ei & _). exists a. split; [exact Ia|]. right. eapply stream_result; eassumption. Qed.

Lemma safe_order st : In st streams -> in_order entry_of f st.
Proof.
  intros I. destruct (stream_of _ I) as (a & Ia & Ei & No). split; [eauto|]. split; [exact No|]. intros p e q t Ep Ee Eq Et. split.
  - eapply (un_ordinary _ _ _ _ _ U); [eapply stream_place; eassumption|exact Ee].
  - eapply (un_ordinary _ _ _ _ _ U); [eapply result_place; eassumption|exact Et].
Qed.
Lemma safe_separate : separate entry_of streams.
Proof.
  intros st st' p q e I I' Ei Eo Ep Eq. destruct (stream_of _ I) as (a & Ia & Ea & _). destruct (stream_of _ I') as (b & Ib & Eb & _).
  assert (p = q).
  { apply (un_entries _ _ _ _ _ U); [exact (stream_place _ _ I Ei)|exact (result_place _ _ I' Eo)|congruence|congruence]. }
  apply (un_apart _ _ _ _ _ U b a Ib Ia). replace (components a) with q by congruence. exact (stream_result _ _ _ I' Ib Eb Eo).
Qed.
Lemma safe_distinct : distinct_outputs entry_of streams.
Proof.
  intros l1 st l2 st' l3 q q' t E Eo Eo' Et Et'.
  assert (I : In st streams) by (rewrite E; apply in_or_app; right; left; reflexivity).
  assert (I' : In st' streams) by (rewrite E; apply in_or_app; right; right; apply in_or_app; right; left; reflexivity).
  destruct (stream_of _ I) as (a & Ia & Ea & _). destruct (stream_of _ I') as (b & Ib & Eb & _).
  assert (q = q').
  { apply (un_entries _ _ _ _ _ U); [eapply result_place; [exact I|exact Eo]|eapply result_place; [exact I'|exact Eo']|congruence|congruence]. } subst q'.
  pose proof (same_result _ _ _ _ _ (stream_result _ _ _ I Ia Ea Eo) (stream_result _ _ _ I' Ib Eb Eo')) as Eab.
  pose proof (un_once _ _ _ _ _ U) as D.
  assert (M : map s_input streams = map IFile (map components (m_free m))).
  { clear - F. induction F as [|x st l ss [Ei _] F' IH]; [reflexivity|]. cbn [map]. rewrite Ei, IH by exact F'. reflexivity. }
  assert (D' : NoDup (map s_input streams)).
  { rewrite M. clear - D. induction D as [|x l N _ IH]; cbn [map]; constructor; [|exact IH]. intros I. apply in_map_iff in I as (y & [= ->] & I). exact (N I). }
  rewrite E, map_app in D'. cbn [map] in D'. apply NoDup_remove_2 in D'. apply D'. apply in_or_app. right. rewrite map_app. apply in_or_app. right. cbn [map]. left. congruence.
Qed.
End Env.

(** ** Command lines *)

Section Main.
Variable entry_of : names.
Variable lib : crypto_lib.
Variable sha512 : bytes -> bytes.
Variable files : text -> option bytes.

(** A run changes nothing, or converts files that are named without ambiguity. *)
Lemma run_cases dir s args occs free tin tout terr w status w' : means 0 args occs free -> asks_to dir occs -> suffix occs s ->
  unambiguous entry_of (w_fs w) dir s free -> w_past w = [] ->
  main entry_of lib sha512 files args tin tout terr w status w' ->
  ((forall g, In g (moments w') -> g = w_fs w) /\ (status = 0 -> args <> [] -> to_stdout occs free)) \/
  exists streams policy force d u r w1,
    parse_command_line sha512 files args tin tout terr (w_ui w) = (Ok (CryptStreams streams policy force d), u) /\
    crypt_streams entry_of lib streams policy force d (set_ui w u) r w1 /\ same_files w1 w' /\
    status = match r with Ok _ => 0 | Err _ => 1 | Panic => 101 end /\
    (force = true <-> given OForce occs) /\ originals occs policy /\ ~ to_stdout occs free /\
    get_input_output_streams (mkMatches occs free) dir force = Ok streams /\ get_encrypted_file_extension (mkMatches occs free) = s /\
    Forall2 (fun a st => s_input st = IFile (components a) /\ forall q, s_output st = Ok q -> exists p, q = OFile p) free streams.
Proof.
  intros R As Sx U Pw H. destruct (main_inv _ _ _ _ _ _ _ _ _ _ _ H) as (rc & u & Ep & [(N & Q & Z)|(c & r & w1 & -> & H1 & Q & _ & _ & Es)]).
  { left. split; [|intros E; contradiction]. intros g Ig. rewrite (moments_same _ _ Q) in Ig. unfold moments in Ig. rewrite Pw in Ig. destruct Ig as [<-|[]]. reflexivity. }
  destruct (command_line_inv _ _ _ _ _ _ _ _ _ Ep) as (m & P & Pf & C). pose proof (means_is _ _ _ _ R P) as ->.
  assert (Em : get_mode (mkMatches occs free) = MCrypt dir) by (destruct dir; [apply mode_encrypt, As|apply mode_decrypt, As]). rewrite Em in Pf.
  destruct c as [streams policy force d|ks force| |].
  2:{ destruct (match args with [] => true | _ => false end && tout); [|destruct dir]; contradiction Pf. }
  2,3: left; split; [|intros _ Na; destruct args as [|a args]; [contradiction|]; cbn [andb] in Pf; destruct dir; contradiction Pf];
    intros g Ig; rewrite (moments_same _ _ Q) in Ig; cbn [run_command] in H1; destruct H1 as (out & -> & _); unfold moments in Ig; cbn in Ig; rewrite Pw in Ig; destruct Ig as [<-|[]]; reflexivity.
  cbn [run_command] in H1. destruct (C _ _ _ _ eq_refl) as (dir' & u1 & u2 & Ed & Ef & Hs & _).
  assert (dir' = dir) as ->.
  { destruct (match args with [] => true | _ => false end && tout); [destruct d; contradiction Pf|]. destruct dir, dir', d; try reflexivity; try contradiction Pf.
    - destruct (proj2 Ed); [eauto|reflexivity].
    - destruct (proj1 Ed eq_refl) as (? & ? & E). discriminate E. }
  destruct (C69_options_have_their_effect _ _ _ _ _ _ _ _ _ _ _ _ _ _ R Ep) as (Fo & Or & [[To (i & -> & Si)]|(To & _ & F)] & _).
  - left. split; [|auto]. intros g Ig. rewrite (moments_same _ _ Q) in Ig.
    assert (Ni : forall p, i <> IFile p) by (intros p ->; destruct Si as [[_ E]|(a & _ & _ & E)]; discriminate E).
    destruct (C32_stream_mode_changes_no_file _ _ _ _ _ _ _ _ _ _ H1 eq_refl Ni Pw) as [K _]. exact (K g Ig).
  - right. exists streams, policy, force, d, u, r, w1. pose proof (suffix_is _ _ _ _ P Sx). auto 12.
Qed.
End Main.

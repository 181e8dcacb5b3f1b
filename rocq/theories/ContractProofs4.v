(** Proofs about the contract of the crypto library, continued: the whole program. *)
From Coq.Strings Require Import Byte String.
From Coq Require Import List Arith NArith ZArith Lia Bool.
From Verif Require Import Base BaseFacts Errors Shamir Io Crypto HeaderCrypto HeaderCryptoProofs CredSpec FileCrypto Text Util CliErrors KeyFiles KeyProofs.
From Verif Require Import Ui Paths Getopts CliCreds Cli Fs Commands CliProofs LibSodium ContractSpec ContractProofs ContractProofs2 ContractProofs3.
Import ListNotations.

(** ** Credentials from the command line *)

Fixpoint keyed (c : cred) : Prop :=
  match c with
  | Password _ => True
  | SymmetricKey k => length k = 32
  | PublicKey k => length k = 32
  | PrivateKey k => length k = 64
  | Complex subs _ _ => fold_right and True (map (fun p => keyed (snd p)) subs)
  end.

Lemma keyed_complex subs n t : keyed (Complex subs n t) <-> Forall (fun p => keyed (snd p)) subs.
Proof.
  cbn. induction subs as [|p l IH]; cbn; [split; auto|]. rewrite IH. split.
  - intros [H1 H2]. now constructor. - intros H. now inversion H.
Qed.

Lemma keyed_sized c : keyed c -> short_passwords (passwords c) -> sized c.
Proof.
  unfold short_passwords. induction c as [p|k|k|k|subs n t IH] using cred_ind'; intros HK HP; cbn in *; auto.
  - now inversion HP.
  - induction IH as [|p l Hp _ IHl]; cbn in *; [exact I|]. apply Forall_app in HP as [P1 P2]. destruct HK as [K1 K2]. auto.
Qed.

Section Parse.
Variable sha512 : bytes -> bytes.
Variable files : text -> option bytes.

Lemma read_token_keyed d sk t u cs u' : read_token sha512 files d sk t u = (Ok cs, u') -> Forall keyed cs.
Proof.
  assert (HP : forall c, is_password c -> keyed c) by (intros [| | | |]; cbn; auto; contradiction).
  intros H. destruct t; cbn [CliCreds.read_token] in H; try discriminate H.
  - apply CliProofs.bind_ok in H as (c & u1 & H & H2). apply ret_ok in H2 as [<- _]. apply interactive_password in H. constructor; auto.
  - apply CliProofs.bind_ok in H as (c & u1 & H & H2). apply ret_ok in H2 as [<- _]. apply interactive_password in H. constructor; auto.
  - apply lift_ok in H as [H _]. eapply read_file_forall; [|exact H]. intros a b [= <-]. exact I.
  - apply lift_ok in H as [H _]. eapply read_file_forall; [|exact H]. intros a b E. unfold symmetric_key_line, bind in E.
    destruct (from_hex32 _ _ _) eqn:Eh; try discriminate E. injection E as <-. exact (from_hex32_length _ _ _ _ Eh).
  - apply CliProofs.bind_ok in H as (a & u1 & _ & H). apply lift_ok in H as [H _].
    eapply read_file_forall; [|exact H]. intros x b E. unfold public_key_line, bind in E.
    destruct (from_hex32 _ _ _) eqn:Eh; try discriminate E. injection E as <-. exact (from_hex32_length _ _ _ _ Eh).
  - apply CliProofs.bind_ok in H as (a & u1 & _ & H). apply CliProofs.bind_ok in H as (c & u2 & H & H2). apply ret_ok in H2 as [<- _].
    apply lift_ok in H as [E _]. unfold public_key_line, bind in E.
    destruct (from_hex32 _ _ _) eqn:Eh; try discriminate E. injection E as <-. constructor; [|constructor]. exact (from_hex32_length _ _ _ _ Eh).
  - apply CliProofs.bind_ok in H as (a & u1 & _ & H). apply lift_ok in H as [H _].
    eapply read_file_forall; [|exact H]. intros x b E. unfold private_key_line, bind in E.
    destruct (from_hex64_private_key _ _ _) eqn:Eh; try discriminate E. injection E as <-. cbn. apply (from_hex64_length _ _ _ _ Eh).
Qed.

Definition keyed_state (st : parse_state) : Prop := Forall (fun p => keyed (snd p)) (p_sub_creds st).

Lemma add_keyed st cs u st' u' : keyed_state st -> Forall keyed cs -> add_creds st cs u = (Ok st', u') -> keyed_state st'.
Proof.
  intros H1 H2 H. unfold add_creds in H. apply CliProofs.bind_ok in H as (a & u1 & _ & H). apply ret_ok in H as [<- _].
  unfold keyed_state. cbn. apply Forall_app. split; [exact H1|]. apply Forall_map. exact H2.
Qed.

Lemma finish_keyed lvl e st c : keyed_state st -> finish_group lvl e st = Ok c -> keyed c.
Proof.
  intros H1 H. unfold finish_group in H.
  repeat (apply BaseFacts.bind_ok in H as (? & _ & H)). injection H as <-. apply keyed_complex. exact H1.
Qed.

Lemma parse_loop_keyed fuel : forall d sk lvl st ts u c rest u', keyed_state st ->
  parse_loop sha512 files fuel d sk lvl st ts u = (Ok (c, rest), u') -> keyed c.
Proof.
  induction fuel as [|fuel IH]; intros d sk lvl st ts u c rest u' HS H; [discriminate H|].
  destruct ts as [|t ts]; cbn [CliCreds.parse_loop] in H.
  { apply CliProofs.bind_ok in H as (a & u1 & H & H2). apply ret_ok in H2 as [E _]. injection E as -> _.
    apply lift_ok in H as [H _]. eapply finish_keyed; eauto. }
  apply CliProofs.bind_ok in H as (a1 & u1 & _ & H). apply CliProofs.bind_ok in H as (a2 & u2 & _ & H).
  assert (Kr : bind_act (read_token sha512 files d sk t) (fun creds => let+ st := add_creds st creds in parse_loop sha512 files fuel d sk lvl st ts) u2 = (Ok (c, rest), u') -> keyed c).
  { intros E. apply CliProofs.bind_ok in E as (cs & u3 & E1 & E). apply CliProofs.bind_ok in E as (st' & u4 & E2 & E).
    eapply IH; [|exact E]. eapply add_keyed; [exact HS| |exact E2]. eapply read_token_keyed; eauto. }
  destruct t; try (exact (Kr H));
    try (apply CliProofs.bind_ok in H as (b & v & _ & H); eapply IH; [|exact H]; exact HS).
  - apply CliProofs.bind_ok in H as ([sub ts2] & v & H1 & H). apply CliProofs.bind_ok in H as (st' & v2 & H2 & H).
    eapply IH; [|exact H]. eapply add_keyed; [exact HS| |exact H2]. constructor; [|constructor].
    eapply IH; [|exact H1]. constructor.
  - apply CliProofs.bind_ok in H as (b & v & H1 & H). apply ret_ok in H as [E _]. injection E as -> _.
    apply lift_ok in H1 as [H1 _]. eapply finish_keyed; eauto.
Qed.

Lemma parse_complex_keyed d sk ts u c u' : parse_complex_credential sha512 files d sk ts u = (Ok c, u') -> keyed c.
Proof.
  intros H. apply CliProofs.bind_ok in H as ([c0 rest] & u1 & H & H2). apply ret_ok in H2 as [<- _].
  eapply parse_loop_keyed; [|exact H]. constructor.
Qed.

Definition command_keyed (c : command) : Prop :=
  match c with
  | CryptStreams _ _ _ (DoEncrypt c _) => keyed c
  | CryptStreams _ _ _ (DoDecrypt cs) => Forall keyed cs
  | _ => True
  end.

Lemma parse_keyed args a b e u c u' : parse_command_line sha512 files args a b e u = (Ok c, u') -> command_keyed c.
Proof.
  intros H. unfold parse_command_line in H.
  apply CliProofs.bind_ok in H as (m & u1 & _ & H). apply CliProofs.bind_ok in H as (x & u2 & _ & H). apply CliProofs.bind_ok in H as (y & u3 & _ & H).
  destruct (if _ && b then MHelp else get_mode m) as [d| | |].
  - apply CliProofs.bind_ok in H as (st & u4 & _ & H). apply CliProofs.bind_ok in H as (z & u5 & _ & H).
    apply CliProofs.bind_ok in H as (pol & u6 & _ & H). apply CliProofs.bind_ok in H as (dir & u7 & H & H2).
    apply ret_ok in H2 as [<- _]. destruct d.
    + apply CliProofs.bind_ok in H as (c0 & u8 & H & H2). apply ret_ok in H2 as [<- _]. cbn.
      apply CliProofs.bind_ok in H as (ts & u9 & _ & H). eapply parse_complex_keyed; exact H.
    + apply CliProofs.bind_ok in H as (cs & u8 & H & H2). apply ret_ok in H2 as [<- _]. cbn.
      apply CliProofs.bind_ok in H as (ts & u9 & _ & H). apply CliProofs.bind_ok in H as (c0 & u10 & Hc & H).
      apply parse_complex_keyed in Hc. destruct c0 as [| | | |subs n t]; try discriminate H. apply keyed_complex in Hc.
      apply CliProofs.bind_ok in H as (? & ? & _ & H). apply CliProofs.bind_ok in H as (? & ? & _ & H). apply lift_ok in H as [H _].
      apply map_out_ok in H. clear -Hc H. induction H as [|[n c] c' l l' E _ IH]; constructor.
      * inversion Hc; subst. unfold bind, assert in E. destruct (n =? 1)%N; [|discriminate E]. now injection E as <-.
      * apply IH. now inversion Hc.
  - apply CliProofs.bind_ok in H as (ks & ? & _ & H). apply ret_ok in H as [<- _]. exact I.
  - apply ret_ok in H as [<- _]. exact I.
  - apply ret_ok in H as [<- _]. exact I.
Qed.
End Parse.

(** ** Inclusion of computations *)

Definition io_le {A} (m m' : io A) : Prop := forall w r w', m w r w' -> m' w r w'.

Lemma io_le_refl {A} (m : io A) : io_le m m.
Proof. intros w r w' H. exact H. Qed.

Lemma io_le_bind {A B} (m m' : io A) (f f' : A -> io B) :
  io_le m m' -> (forall a, io_le (f a) (f' a)) -> io_le (io_bind m f) (io_bind m' f').
Proof.
  intros H1 H2 w r w' [(a & w1 & A1 & A2)|[(e & A1 & A2)|[A1 A2]]].
  - left. exists a, w1. split; [now apply H1|now apply H2].
  - right. left. exists e. auto.
  - right. right. auto.
Qed.

Lemma io_le_try {A} (m m' : io A) : io_le m m' -> io_le (io_try m) (io_try m').
Proof.
  intros H w r w' [(x & A1 & A2 & A3)|[A1 A2]]; [left; exists x; auto|right; auto].
Qed.

Section TwoLibs.
Variable E : names.
Variables lib lib' : crypto_lib.

Section Crypt.
Variable d : direction_opts.
Hypothesis Hconv : forall er src w r w', random_ok er -> conversion lib d er src w r w' -> conversion lib' d er src w r w'.

Lemma convert_le rd wr : io_le (convert E lib d rd wr) (convert E lib' d rd wr).
Proof.
  intros w r w' (er & src & room & fl & r0 & snk & lines & H1 & H2 & H3 & H4 & H5).
  exists er, src, room, fl, r0, snk, lines. auto 7.
Qed.

Lemma attempt_le {k n} s force : io_le (attempt E lib k n s force d) (attempt E lib' k n s force d).
Proof.
  apply io_le_bind; [apply io_le_refl|]. intros [[[rd wr] cb]|e|]; try apply io_le_refl.
  apply io_le_bind; [|intros; apply io_le_refl]. apply io_le_try. apply convert_le.
Qed.

Lemma step_le {k n} s force : io_le (step E lib k n s force d) (step E lib' k n s force d).
Proof. apply io_le_bind; [apply attempt_le|]. intros [res cb]. apply io_le_refl. Qed.

Lemma process_le {k n} streams force : io_le (process E lib k n streams force d) (process E lib' k n streams force d).
Proof.
  revert k. induction streams as [|s l IH]; intros k; [apply io_le_refl|].
  apply io_le_bind; [apply step_le|]. intros [cbs errors]. apply io_le_bind; [apply io_le_refl|]. intros _.
  apply io_le_bind; [apply IH|]. intros [? ?]. apply io_le_refl.
Qed.

Lemma crypt_le streams policy force : io_le (crypt_streams E lib streams policy force d) (crypt_streams E lib' streams policy force d).
Proof. apply io_le_bind; [apply process_le|]. intros [cbs errors]. apply io_le_refl. Qed.
End Crypt.

Lemma generate_le {k n} sha512 cs cs' : (forall s, cs_keypair cs s = cs_keypair cs' s) -> forall streams force,
  io_le (generate_all E sha512 k n cs streams force) (generate_all E sha512 k n cs' streams force).
Proof.
  intros H streams force. revert k. induction streams as [|ks l IH]; intros k; [apply io_le_refl|].
  apply io_le_bind.
  - intros w r w' (-> & seed & ->). split; [reflexivity|]. exists seed. now rewrite H.
  - intros [pk sk]. apply io_le_bind; [apply io_le_refl|]. intros [t1 t2].
    repeat (apply io_le_bind; [apply io_le_refl|]; intros ?).
    apply io_le_bind; [apply IH|]. intros ?. apply io_le_refl.
Qed.

Lemma generate_files_le sha512 : (match lib ChaCha20Poly1305Ietf, lib' ChaCha20Poly1305Ietf with
    | Some cs, Some cs' => forall s, cs_keypair cs s = cs_keypair cs' s | None, None => True | _, _ => False end) ->
  forall streams force, io_le (generate_key_pair_files E lib sha512 streams force) (generate_key_pair_files E lib' sha512 streams force).
Proof.
  intros H streams force. unfold generate_key_pair_files.
  destruct (lib ChaCha20Poly1305Ietf) as [cs|], (lib' ChaCha20Poly1305Ietf) as [cs'|]; try contradiction.
  - intros w r w' [(a & w1 & (A1 & A2) & A)|[(e & (A1 & _) & _)|[(A1 & _) _]]]; try discriminate.
    injection A1 as ->. subst w1. left. exists cs', w. split; [split; reflexivity|].
    revert A. apply io_le_bind; [now apply generate_le|]. intros; apply io_le_refl.
  - intros w r w' [(a & w1 & (A1 & A2) & A)|G]; [discriminate A1|]. right. exact G.
Qed.
End TwoLibs.

Lemma sized_conversion_same lib lib' d : lib_ok lib -> lib_contract lib' -> lib_same_within lib lib' ->
  match d with DoEncrypt c _ => sized c | DoDecrypt cs => Forall sized cs end ->
  forall er src w r w', random_ok er -> conversion lib d er src w r w' <-> conversion lib' d er src w r w'.
Proof.
  intros H1 H2 H3 HS er src w r w' Hr. destruct d as [c fast|cs]; cbn [conversion].
  - destruct c; try reflexivity. apply encrypt_stream_same; auto.
  - apply decrypt_stream_same; auto.
Qed.

Lemma sized_of_command c : command_keyed c -> short_passwords (command_passwords c) ->
  match c with
  | CryptStreams _ _ _ d => match d with DoEncrypt c _ => sized c | DoDecrypt cs => Forall sized cs end
  | _ => True
  end.
Proof.
  destruct c as [st pol force [c fast|cs]| | |]; cbn; auto using keyed_sized.
  intros HK HP. unfold short_passwords in HP. induction HK as [|c l K1 _ IH]; constructor; cbn in HP; apply Forall_app in HP as [P1 P2]; auto using keyed_sized.
Qed.

Section Main.
Variable E : names.
Variables lib lib' : crypto_lib.
Hypothesis Hok : lib_ok lib.
Hypothesis Hc : lib_contract lib'.
Hypothesis Hs : lib_same_within lib lib'.
Variable sha512 : bytes -> bytes.

Lemma keypairs_same : match lib ChaCha20Poly1305Ietf, lib' ChaCha20Poly1305Ietf with
    | Some cs, Some cs' => forall s, cs_keypair cs s = cs_keypair cs' s | None, None => True | _, _ => False end.
Proof.
  pose proof (Hs ChaCha20Poly1305Ietf) as H. destruct (lib _), (lib' _); auto. intros s. now apply s_keypair.
Qed.

Lemma run_same c : command_keyed c -> short_passwords (command_passwords c) ->
  io_le (run_command E lib sha512 c) (run_command E lib' sha512 c) /\
  io_le (run_command E lib' sha512 c) (run_command E lib sha512 c).
Proof.
  intros HK HP. pose proof (sized_of_command c HK HP) as HS.
  destruct c as [st pol force d|ks force| |]; cbn [run_command].
  - split; apply crypt_le; intros er src w r w' Hr H; revert H; apply (sized_conversion_same lib lib' d); auto.
  - split; apply generate_files_le; [exact keypairs_same|].
    pose proof keypairs_same as H. destruct (lib _), (lib' _); auto.
  - split; apply io_le_refl.
  - split; apply io_le_refl.
Qed.

Lemma main_same files args a b e w status w' :
  (forall c u, parse_command_line sha512 files args a b e (w_ui w) = (Ok c, u) -> short_passwords (command_passwords c)) ->
  main E lib sha512 files args a b e w status w' <-> main E lib' sha512 files args a b e w status w'.
Proof.
  intros HP. unfold main.
  assert (HR : forall r w1,
    (let! c := io_ui (parse_command_line sha512 files args a b e) in run_command E lib sha512 c) w r w1 <->
    (let! c := io_ui (parse_command_line sha512 files args a b e) in run_command E lib' sha512 c) w r w1).
  { intros r w1. unfold io_bind, io_ui. destruct (parse_command_line sha512 files args a b e (w_ui w)) as [[c|err|] u] eqn:EP; cbn [fst snd].
    - destruct (run_same c (parse_keyed _ _ _ _ _ _ _ _ _ EP) (HP _ _ eq_refl)) as [L1 L2].
      split; (intros [(c' & w2 & (A1 & A2) & A)|[(e' & (A1 & _) & _)|[(A1 & _) _]]]; try discriminate A1);
        injection A1 as ->; subst w2; left; exists c; eexists; split; try (split; reflexivity); auto.
    - split; (intros [(c' & w2 & (A1 & A2) & A)|G]; [discriminate A1|right; exact G]).
    - split; (intros [(c' & w2 & (A1 & A2) & A)|G]; [discriminate A1|right; exact G]). }
  split; intros (r & w1 & H & H2); exists r, w1; (split; [now apply HR|exact H2]).
Qed.
End Main.

(** Proofs about runs whose keys do not open the header (C95). *)
From Coq.Strings Require Import Byte String.
From Coq Require Import List NArith ZArith Bool PeanoNat Lia.
From Verif Require Import Base BaseFacts Shamir Errors Io HeaderIo HeaderIoSpec HeaderIoProofs StreamSpec Text Util CliErrors Getopts CliCreds Crypto HeaderCrypto CredSpec HeaderCryptoProofs2 StreamCrypto Pipeline FileCrypto FileProofs
  Proto ProtoSpec ProtoProofs KeyFiles Ui UiSpec UiProofs Paths Cli CliProofs PathSpec PathProofs OptSpec OptProofs CmdSpec CmdProofs Fs Commands FsSpec FsProofs FsProofs4 FsProofs5 FsProofs9 FsProofs10 FsProofs12 FlowSpec FlowProofs PipeSpec PipeProofs2 ProcessProofs HopeSpec HopeProofs.
Import ListNotations.
Local Open Scope N_scope.

(** ** Headers *)

Lemma header_unique h h' b : (1 <= lenN h <= MAX_HEADER_LEN)%N -> (1 <= lenN h' <= MAX_HEADER_LEN)%N ->
  begins_with_header h b -> begins_with_header h' b -> h = h'.
Proof.
  intros L L' (f & r & F & E) (f' & r' & F' & E').
  apply frame_spec in F; [|eapply N.le_lt_trans; [exact (proj2 L)|reflexivity]]. apply frame_spec in F'; [|eapply N.le_lt_trans; [exact (proj2 L')|reflexivity]]. subst f f'.
  assert (S : flat [RData b] = b) by (destruct b; [reflexivity|cbn [flat]; apply app_nil_r]).
  destruct (read_header_complete [RData b] h r L) as (s1 & R1 & _); [congruence|]. destruct (read_header_complete [RData b] h' r' L') as (s2 & R2 & _); [congruence|]. congruence.
Qed.
Lemma no_header_unopenable lib D b : (forall h, ~ begins_with_header h b) -> unopenable lib D b.
Proof. intros N h x _ B. destruct (N h B). Qed.
Lemma header_unopenable lib D b ser : (1 <= lenN ser <= MAX_HEADER_LEN)%N -> begins_with_header ser b -> (forall x, decrypt_header lib ser D <> Ok x) -> unopenable lib D b.
Proof. intros L B N h x Lh Bh. rewrite (header_unique _ _ _ Lh L Bh B). apply N. Qed.

Lemma fast_file_unopenable lib lib' c b file D : lib_ok lib' -> wf_cred c -> is_conversion lib' (DoEncrypt c true) b file -> lib AES256GCM = None -> unopenable lib D file.
Proof.
  intros Hl Wc (er & src & room & fl & snk & Hr & _ & _ & C & Ec) Na. cbn [conversion] in C.
  destruct c as [|p|p|p|subs n t]; try (destruct C; discriminate). set (opts := mkEncryptOptions subs n t true) in *.
  destruct (encrypt_header lib' opts er) as [[[ser cod] chunk]| |] eqn:He; [|unfold encrypt_stream in C; rewrite He in C; destruct C; discriminate..].
  destruct (encrypt_stream_ok lib' opts er ser cod chunk Hl Hr He _ _ _ C) as (L & _).
  assert (L1 : 1 <= lenN ser) by (eapply ser_nonempty; eassumption).
  assert (B : begins_with_header ser file) by (rewrite Ec; eapply header_first; try eassumption; reflexivity).
  apply (header_unopenable lib D file ser (conj L1 L) B). intros x Hx.
  destruct (encrypt_header_inv _ _ _ _ _ _ He) as (cs & t' & l & st & _ & _ & Hk & Hs & _).
  set (ct := aead_encrypt_easy cs _ _ _) in Hs.
  assert (Hd : decode_header ser = Some (mkHeader (cryptofamily_from_opts (eo_fast opts)) (fst (cs_keypair cs (er_seed er))) (Some (t', l)) ct)).
  { rewrite Hs. apply header_round_trip; [split; cbn; [destruct (eo_fast opts); unfold two32; lia|apply (proj1 (kdata_u64_comp t' l)); eapply encrypted_u64; [exact Wc|exact Hk]]|]. rewrite <- Hs. unfold MAX_HEADER_LEN in L. eapply N.le_lt_trans; [exact L|reflexivity]. }
  unfold decrypt_header in Hx. rewrite Hd in Hx. cbn [bind hd_family] in Hx. unfold opts, cryptosys_from_proto, cryptofamily_from_opts in Hx. cbn [eo_fast N.eqb Pos.eqb bind] in Hx. rewrite Na in Hx. discriminate Hx.
Qed.

(** The sources that supply [b], or a part of it before an error. *)
Definition part_of (src : source) (b : bytes) : Prop := exists rest, b = flat src ++ rest.
Lemma unopenable_mute lib D b er src v r v' : unopenable lib D b -> part_of src b -> conversion lib (DoDecrypt D) er src v r v' -> v' = v /\ r <> Ok tt.
Proof.
  intros U (rest & E) C. cbn [conversion] in C. unfold decrypt_stream in C.
  destruct (read_header src) as [[[h k] src']|e|] eqn:R; [|destruct C as [-> ->]; split; [reflexivity|discriminate]..].
  apply read_header_sound in R as (L & F & _). assert (B : begins_with_header h b).
  { exists (frame_of h), (flat src' ++ rest). split; [apply frame_spec; [eapply N.le_lt_trans; [exact (proj2 L)|reflexivity]|reflexivity]|]. rewrite E, F, app_assoc. reflexivity. }
  destruct (decrypt_header lib h D) as [x|e|] eqn:Hd; [destruct (U h x L B Hd)|destruct C as [-> ->]; split; [reflexivity|discriminate]..].
Qed.

(** ** Runs *)

Section Mute.
Variable entry_of : names.
Variable lib : crypto_lib.
Variable D : list cred.
Variable b : bytes.
Hypothesis Hu : unopenable lib D b.

Lemma mute_convert rd w r w' : (forall src, provides entry_of (w_fs w) rd WriteStdout src -> part_of src b) ->
  convert entry_of lib (DoDecrypt D) rd WriteStdout w r w' -> w_stdout w' = w_stdout w.
Proof.
  intros P (er & src & room & fo & r0 & snk & lines & _ & _ & Hp & C & H). destruct (unopenable_mute _ _ _ _ _ _ _ _ Hu (P _ Hp) C) as [-> N]. cbn [w_out] in H.
  assert (K : forall l, w_stdout (let w1 := write_out WriteStdout [] w in set_ui w1 (progress_lines l (w_ui w1))) = w_stdout w).
  { intros l. cbn [set_ui w_stdout write_out]. apply app_nil_r. }
  destruct H as [[_ ->]|(_ & _ & o & (rest & E) & ->)]; [apply K|]. destruct o; [apply K|discriminate E].
Qed.
(** What an opened stream supplies. *)
Lemma opened_part i force w free rest rd w1 : from_source free i -> u_input (w_ui w) = Some rest -> supplied entry_of (w_fs w) rest free b ->
  open_input entry_of i force w (Ok rd) w1 -> forall src, provides entry_of (w_fs w1) rd WriteStdout src -> part_of src b.
Proof.
  intros Fs Iu Su H src P. pose proof (quiet_open_input _ _ _ _ _ _ H) as (Qf & _ & _). rewrite Qf in P. clear Qf.
  destruct Fs as [[Fr ->]|(a & -> & Na & ->)]; cbn [open_input] in H.
  - destruct Su as [[_ ->]|(a & -> & Na & _)]; [|exfalso; destruct Fr as [Fr|Fr]; [discriminate Fr|congruence]].
    unfold open_stdin in H. rewrite Iu in H. destruct H as [[= ->] _]. cbn [provides] in P. subst src. exists []. symmetry. apply app_nil_r.
  - destruct Su as [[[Fr|Fr] _]|(a' & [= <-] & _ & Ct)]; [discriminate Fr|congruence|].
    apply bind_ok_inv in H as ([rd0 md] & w2 & H & [[= ->] _]).
    apply bind_ok_inv in H as (rd1 & wa & [-> Ho] & H). apply bind_ok_inv in H as (? & ? & [-> _] & H). apply bind_ok_inv in H as (? & ? & [_ _] & [[= -> _] _]).
    destruct Ho as [[E _]|(s & t & Es & F & Ho)]; [discriminate E|]. unfold content in Ct. rewrite Es, F in Ct.
    destruct Ho as [(j & Et & [= ->])|(Et & E)]; [|rewrite Et in Ct; discriminate Ct]. rewrite Et in Ct.
    cbn [provides] in P. destruct (f_nodes (w_fs w) j) as [n|]; [|discriminate Ct]. destruct (n_regular n) eqn:Er; [|discriminate Ct]. injection Ct as <-.
    specialize (P eq_refl ltac:(discriminate)). destruct (ends_in_error src); [destruct P as [_ (r & ->)]; exists r; reflexivity|]. exists []. rewrite app_nil_r. symmetry. exact P.
Qed.

Lemma mute_attempt k n i force w free rest r w' : from_source free i -> u_input (w_ui w) = Some rest -> supplied entry_of (w_fs w) rest free b ->
  attempt entry_of lib k n (mkStream i (Ok OStdout)) force (DoDecrypt D) w r w' -> w_stdout w' = w_stdout w.
Proof.
  intros Fs Iu Su H. unfold attempt in H. cbn [s_input s_output] in H.
  set (op := io_bind (io_ui (ignore (ui_println 0 _))) _) in H.
  assert (O : stays true false op).
  { apply stays_bind; [apply stays_ui, in_ignore, in_println|]. intros _. apply stays_bind; [apply stays_lift|]. intros o.
    apply stays_bind; [apply stays_open_input; discriminate|]. intros rd. apply stays_bind; [apply stays_open_output|]. intros wr. apply stays_ret. }
  assert (O' : forall x w1, io_try op w x w1 -> w_stdout w1 = w_stdout w) by (intros x w1 Hx; exact (proj1 (stays_try true false _ O w x w1 Hx) eq_refl)).
  destruct H as [(x & w1 & H1 & H)|[(e & H1 & ->)|(H1 & ->)]]; [|eapply O', H1..]. pose proof (O' _ _ H1) as E1.
  destruct x as [[[rd wr] cb']|e|]; [|destruct H as [-> ->]; exact E1..].
  destruct H1 as [(y & _ & H1 & E)|(_ & E)]; [|discriminate E]. injection E as <-. unfold op in H1.
  apply bind_ok_inv in H1 as (u2 & w9 & [_ ->] & H1). apply bind_ok_inv in H1 as (o & w10 & [[= ->] ->] & H1).
  apply bind_ok_inv in H1 as (rd' & w11 & H1 & H4). apply bind_ok_inv in H4 as (wr' & w12 & [[= ->] ->] & [[= -> -> _] ->]).
  assert (P : forall src, provides entry_of (w_fs w11) rd' WriteStdout src -> part_of src b).
  { refine (opened_part i force _ free rest rd' w11 Fs _ _ H1); [|exact Su]. cbn [set_ui w_ui]. rewrite <- Iu. apply remember_println, println_input. }
  assert (C : forall r0 w2, convert entry_of lib (DoDecrypt D) rd' WriteStdout w11 r0 w2 -> w_stdout w2 = w_stdout w) by (intros r0 w2 Hc; rewrite (mute_convert _ _ _ _ P Hc); exact E1).
  destruct H as [(x & w2 & H2 & [-> ->])|[(e & H2 & ->)|(H2 & ->)]]; (destruct H2 as [(y & _ & H2 & _)|(H2 & _)]; exact (C _ _ H2)).
Qed.
Lemma mute_crypt i policy force w free rest r w' : from_source free i -> u_input (w_ui w) = Some rest -> supplied entry_of (w_fs w) rest free b ->
  crypt_streams entry_of lib [mkStream i (Ok OStdout)] policy force (DoDecrypt D) w r w' -> w_stdout w' = w_stdout w.
Proof.
  intros Fs Iu Su H. unfold crypt_streams in H.
  assert (S : forall x w1, step entry_of lib 0 (length [mkStream i (Ok OStdout)]) (mkStream i (Ok OStdout)) force (DoDecrypt D) w x w1 ->
    w_stdout w1 = w_stdout w /\ forall cbs es, x = Ok (cbs, es) -> cbs = []).
  { intros x w1 [([y cb] & w2 & H1 & K)|[(e & H1 & ->)|(H1 & ->)]]; [|split; [exact (mute_attempt _ _ _ _ _ _ _ _ _ Fs Iu Su H1)|discriminate]..].
    rewrite <- (mute_attempt _ _ _ _ _ _ _ _ _ Fs Iu Su H1). destruct y as [[]|e|].
    - destruct K as [-> ->]. split; [reflexivity|]. intros cbs es [= <- _]. cbn [s_input]. destruct Fs as [[_ ->]|(a & _ & _ & ->)]; reflexivity.
    - split.
      + refine (proj1 (_ : calm true false w2 w1) eq_refl). revert K. match goal with |- ?m w2 x w1 -> _ => assert (Q : stays true false m); [|apply Q] end.
        apply stays_bind; [apply stays_ui, in_ignore, in_error|]. intros _. apply stays_bind; [destruct cb; [apply stays_remove|apply stays_ret]|]. intros _. apply stays_ret.
      + intros cbs es ->. apply bind_ok_inv in K as (? & ? & _ & K). apply bind_ok_inv in K as (? & ? & _ & [K _]). injection K as -> _. reflexivity.
    - destruct K as [-> ->]. split; [reflexivity|discriminate]. }
  assert (Pr : forall x w1, process entry_of lib 0 (length [mkStream i (Ok OStdout)]) [mkStream i (Ok OStdout)] force (DoDecrypt D) w x w1 ->
    w_stdout w1 = w_stdout w /\ forall cbs es, x = Ok (cbs, es) -> cbs = []).
  { intros x w1 [([c0 e0] & w2 & H1 & K)|[(e & H1 & ->)|(H1 & ->)]]; [|split; [exact (proj1 (S _ _ H1))|discriminate]..].
    destruct (S _ _ H1) as [E1 K1]. rewrite (K1 _ _ eq_refl) in K. rewrite <- E1.
    destruct K as [(u & w3 & [_ ->] & K)|[(e & [_ ->] & ->)|([_ ->] & ->)]]; [|split; [reflexivity|discriminate]..].
    destruct K as [([c1 e1] & w4 & [[= -> ->] ->] & [-> ->])|[(e & [K _] & _)|([K _] & _)]]; [|discriminate K..].
    split; [reflexivity|]. intros cbs es [= <- _]. reflexivity. }
  destruct H as [([cbs es] & w1 & H1 & H)|[(e & H1 & _)|(H1 & _)]]; [|exact (proj1 (Pr _ _ H1))..].
  destruct (Pr _ _ H1) as [E K]. rewrite (K _ _ eq_refl) in H.
  destruct H as [(u & w2 & [_ ->] & [_ ->])|[(e & [H _] & _)|([H _] & _)]]; [exact E|discriminate H..].
Qed.
End Mute.

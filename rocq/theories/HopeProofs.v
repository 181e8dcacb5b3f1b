(** Proofs about contents that a run cannot convert (C95). *)
From Coq.Strings Require Import Byte String.
From Coq Require Import List NArith ZArith Bool PeanoNat Lia.
From Verif Require Import Base BaseFacts Shamir Errors Io HeaderIo HeaderIoSpec HeaderIoProofs StreamSpec Text Util CliErrors Getopts CliCreds Crypto HeaderCrypto CredSpec HeaderCryptoProofs2 StreamCrypto Pipeline FileCrypto FileProofs
  Proto ProtoSpec ProtoProofs KeyFiles Ui UiSpec UiProofs Paths Cli CliProofs PathSpec PathProofs OptSpec OptProofs CmdSpec CmdProofs Fs Commands FsSpec FsProofs FsProofs4 FsProofs5 FsProofs9 FsProofs10 FsProofs12 FlowSpec FlowProofs PipeSpec PipeProofs2 ProcessProofs HopeSpec.
Import ListNotations.
Local Open Scope N_scope.

(** ** Hopeless contents *)

(** All conversions fail without output. *)
Definition dead (lib : crypto_lib) (d : direction_opts) : Prop :=
  forall er src w r w', conversion lib d er src w r w' -> r <> Ok tt /\ w' = w.
Lemma dead_hopeless lib d : dead lib d -> forall b, hopeless lib d b.
Proof. intros H b c (er & src & room & fl & snk & _ & _ & _ & C & _). destruct (H _ _ _ _ _ C) as [N _]. apply N. reflexivity. Qed.
Lemma fast_dead lib c : lib AES256GCM = None -> dead lib (DoEncrypt c true).
Proof.
  intros Na er src w r w' C. cbn [conversion] in C. destruct c as [|p|p|p|subs n t]; try (destruct C as [-> ->]; split; [discriminate|reflexivity]).
  unfold encrypt_stream in C. replace (encrypt_header lib (mkEncryptOptions subs n t true) er) with (Err EHardwareUnsupported : outcome err (bytes * codec * N)) in C.
  - destruct C as [-> ->]. split; [discriminate|reflexivity].
  - unfold encrypt_header, cryptosys_from_proto, cryptofamily_from_opts. cbn [eo_fast]. cbn [N.eqb Pos.eqb bind]. rewrite Na. reflexivity.
Qed.
Lemma no_header_hopeless lib D b : (forall h, ~ begins_with_header h b) -> hopeless lib (DoDecrypt D) b.
Proof.
  intros N c (er & src & room & fl & snk & _ & _ & <- & C & _). cbn [conversion] in C. unfold decrypt_stream in C.
  destruct (read_header src) as [[[h k] src']|e|] eqn:E; [|destruct C; discriminate..]. apply read_header_sound in E as ((_ & L) & F & _). apply (N h).
  exists (frame_of h), (flat src'). split; [|exact F]. apply frame_spec; [eapply N.le_lt_trans; [exact L|reflexivity]|reflexivity].
Qed.
Lemma fast_file_hopeless lib lib' c b file D : lib_ok lib' -> wf_cred c -> is_conversion lib' (DoEncrypt c true) b file -> lib AES256GCM = None -> hopeless lib (DoDecrypt D) file.
Proof.
  intros Hl Wc (er & src & room & fl & snk & Hr & _ & _ & C & ->) Na b' (er2 & src2 & room2 & fl2 & snk2 & _ & _ & F2 & C2 & _). cbn [conversion] in C, C2.
  destruct c as [|p|p|p|subs n t]; try (destruct C; discriminate). set (opts := mkEncryptOptions subs n t true) in *.
  destruct (encrypt_header lib' opts er) as [[[ser cod] chunk]| |] eqn:He; [|unfold encrypt_stream in C; rewrite He in C; destruct C; discriminate..].
  destruct (encrypt_stream_ok lib' opts er ser cod chunk Hl Hr He _ _ _ C) as (L & Ew & _). cbn [w_out app] in Ew. rewrite Ew in F2.
  assert (L1 : 1 <= lenN ser) by (eapply ser_nonempty; eassumption).
  destruct (read_header_complete src2 ser _ (conj L1 L) F2) as (src3 & E & _). unfold decrypt_stream in C2. rewrite E in C2.
  destruct (encrypt_header_inv _ _ _ _ _ _ He) as (cs & t' & l & st & _ & _ & Hk & Hs & _).
  set (ct := aead_encrypt_easy cs _ _ _) in Hs.
  assert (Hd : decode_header ser = Some (mkHeader (cryptofamily_from_opts (eo_fast opts)) (fst (cs_keypair cs (er_seed er))) (Some (t', l)) ct)).
  { rewrite Hs. apply header_round_trip; [split; cbn; [destruct (eo_fast opts); unfold two32; lia|apply (proj1 (kdata_u64_comp t' l)); eapply encrypted_u64; [exact Wc|exact Hk]]|]. rewrite <- Hs. unfold MAX_HEADER_LEN in L. eapply N.le_lt_trans; [exact L|reflexivity]. }
  replace (decrypt_header lib ser D) with (Err EHardwareUnsupported : outcome err (codec * N)) in C2; [destruct C2; discriminate|].
  unfold decrypt_header. rewrite Hd. cbn [bind hd_family]. unfold opts, cryptosys_from_proto, cryptofamily_from_opts. cbn [eo_fast N.eqb Pos.eqb bind]. rewrite Na. reflexivity.
Qed.

(** ** Runs that cannot convert anything *)

Section Dead.
Variable entry_of : names.
Variable lib : crypto_lib.
Variable d : direction_opts.
Hypothesis Hd : dead lib d.

Lemma dead_convert rd wr w r w' : convert entry_of lib d rd wr w r w' -> r <> Ok tt /\ w_stdout w' = w_stdout w.
Proof.
  intros (er & src & room & fo & r0 & snk & lines & _ & _ & _ & C & H). destruct (Hd _ _ _ _ _ C) as [N ->]. cbn [w_out] in H.
  assert (K : forall l, w_stdout (let w1 := write_out wr [] w in set_ui w1 (progress_lines l (w_ui w1))) = w_stdout w).
  { intros l. cbn [set_ui w_stdout]. destruct wr as [i|]; [apply write_node_stdout|]. cbn [write_out w_stdout]. apply app_nil_r. }
  destruct H as [[-> ->]|(-> & _ & o & (rest & E) & ->)].
  - split; [destruct r0 as [[]| |]; [contradiction N; reflexivity|discriminate..]|apply K].
  - split; [discriminate|]. destruct o; [apply K|discriminate E].
Qed.
Lemma dead_attempt k n s force w r cb w' : attempt entry_of lib k n s force d w r w' -> w_stdout w' = w_stdout w /\ r <> Ok (Ok tt, cb).
Proof.
  intros H. unfold attempt in H.
  assert (O : forall x w1, io_try (let! _ := io_ui (ignore (ui_println 0 (file_header k n s))) in let! output := io_lift (s_output s) in
    let! rd := open_input entry_of (s_input s) force in let! wr := open_output entry_of output force in io_ret (rd, wr, output_cleanup output)) w x w1 -> w_stdout w1 = w_stdout w).
  { intros x w1 Hx. refine (proj1 (stays_try true false _ _ w x w1 Hx) eq_refl).
    apply stays_bind; [apply stays_ui, in_ignore, in_println|]. intros _. apply stays_bind; [apply stays_lift|]. intros o.
    apply stays_bind; [apply stays_open_input; discriminate|]. intros rd. apply stays_bind; [apply stays_open_output|]. intros wr. apply stays_ret. }
  destruct H as [(x & w1 & H1 & H)|[(e & H1 & ->)|(H1 & ->)]]; [|split; [eapply O, H1|discriminate]..]. apply O in H1.
  destruct x as [[[rd wr] cb']|e|]; [|destruct H as [-> ->]; split; [exact H1|discriminate]..].
  destruct H as [(x & w2 & H2 & [-> ->])|[(e & H2 & ->)|(H2 & ->)]].
  - destruct H2 as [(y & _ & H2 & E)|(H2 & E)]; [|discriminate E]. injection E as ->. destruct (dead_convert _ _ _ _ _ H2) as [N E]. split; [congruence|]. congruence.
  - destruct H2 as [(y & _ & H2 & E)|(H2 & E)]; discriminate E.
  - destruct H2 as [(y & _ & H2 & E)|(H2 & E)]; [discriminate E|]. destruct (dead_convert _ _ _ _ _ H2) as [N E']. split; [congruence|discriminate].
Qed.
Lemma dead_step k n s force w r w' : step entry_of lib k n s force d w r w' -> w_stdout w' = w_stdout w /\ forall cbs es, r = Ok (cbs, es) -> cbs = [] /\ es <> [].
Proof.
  intros H. destruct H as [([x cb] & w1 & H1 & H)|[(e & H1 & ->)|(H1 & ->)]].
  - destruct (dead_attempt _ _ _ _ _ _ cb _ H1) as [E N]. destruct x as [[]|e|]; [contradiction N; reflexivity| |destruct H as [-> ->]; split; [exact E|discriminate]].
    split.
    + rewrite <- E. refine (proj1 (_ : calm true false w1 w') eq_refl). revert H. match goal with |- ?m w1 r w' -> _ => assert (S : stays true false m); [|apply S] end.
      apply stays_bind; [apply stays_ui, in_ignore, in_error|]. intros _. apply stays_bind; [destruct cb; [apply stays_remove|apply stays_ret]|]. intros _. apply stays_ret.
    + intros cbs es ->. apply bind_ok_inv in H as (a & w2 & _ & H). apply bind_ok_inv in H as (b & w3 & _ & [H _]). injection H as -> ->. split; [reflexivity|discriminate].
  - split; [exact (proj1 (dead_attempt _ _ _ _ _ _ None _ H1))|discriminate].
  - split; [exact (proj1 (dead_attempt _ _ _ _ _ _ None _ H1))|discriminate].
Qed.
Lemma dead_process force l : forall k n w r w', process entry_of lib k n l force d w r w' ->
  w_stdout w' = w_stdout w /\ forall cbs es, r = Ok (cbs, es) -> cbs = [] /\ (l <> [] -> es <> []).
Proof.
  induction l as [|s l IH]; intros k n w r w' H; cbn [process] in H.
  { destruct H as [-> ->]. split; [reflexivity|]. intros cbs es [= <- <-]. split; [reflexivity|intros X; contradiction]. }
  destruct H as [([c0 e0] & w1 & H1 & H)|[(e & H1 & ->)|(H1 & ->)]].
  2,3: split; [exact (proj1 (dead_step _ _ _ _ _ _ _ H1))|discriminate].
  destruct (dead_step _ _ _ _ _ _ _ H1) as [E1 K1]. destruct (K1 _ _ eq_refl) as [-> N0].
  destruct H as [(u & w2 & [_ ->] & H)|[(e & [_ ->] & ->)|([_ ->] & ->)]]; [|split; [exact E1|discriminate]..].
  destruct H as [([c1 e1] & w3 & H3 & [-> ->])|[(e & H3 & ->)|(H3 & ->)]]; destruct (IH _ _ _ _ _ H3) as [E3 K3]; cbn [set_ui w_stdout] in E3; (split; [congruence|]); [|discriminate..].
  intros cbs es [= <- <-]. destruct (K3 _ _ eq_refl) as [-> _]. split; [reflexivity|]. intros _ X. apply app_eq_nil in X as [X _]. contradiction.
Qed.
Lemma dead_crypt streams policy force w r w' : crypt_streams entry_of lib streams policy force d w r w' -> streams <> [] -> r <> Ok tt /\ w_stdout w' = w_stdout w.
Proof.
  intros H Ns. unfold crypt_streams in H. destruct H as [([cbs es] & w1 & H1 & H)|[(e & H1 & ->)|(H1 & ->)]].
  2,3: split; [discriminate|exact (proj1 (dead_process _ _ _ _ _ _ _ H1))].
  destruct (dead_process _ _ _ _ _ _ _ H1) as [E K]. destruct (K _ _ eq_refl) as [-> Ne]. specialize (Ne Ns).
  destruct H as [(u & w2 & [_ ->] & [-> ->])|[(e & [H _] & _)|([H _] & _)]]; [|discriminate H..]. split; [destruct es; [contradiction|discriminate]|exact E].
Qed.
End Dead.

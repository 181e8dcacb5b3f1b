(** Proofs that runs exist, that encryption cannot fail without a reason, and that decryption restores files. *)
From Coq.Strings Require Import Byte String.
From Coq Require Import List NArith ZArith Bool PeanoNat Lia.
From Verif Require Import Base BaseFacts Shamir Errors Io HeaderIo HeaderIoSpec HeaderIoProofs StreamSpec Text Util CliErrors Crypto HeaderCrypto CredSpec StreamCrypto Pipeline FileCrypto StreamProofs StreamProofs3 FileProofs
  KeyFiles Ui UiSpec UiProofs Paths Getopts Cli Fs Commands FsSpec FsProofs ConvProofs FsProofs2 FsProofs3 FsProofs4 FsProofs5 FsProofs8 FsProofs11.
Import ListNotations.
Local Open Scope N_scope.

(** ** Every run has a result *)

(** As long as there are unused inodes, which stays so. *)
Definition total {A} (m : io A) : Prop :=
  forall w, spacious (w_fs w) -> (exists r w', m w r w') /\ forall r w', m w r w' -> spacious (w_fs w').
Lemma total_quiet {A} (m : io A) : (forall w, exists r w', m w r w') -> (forall w r w', m w r w' -> w_fs w' = w_fs w) -> total m.
Proof. intros H Q w Sp. split; [apply H|]. intros r w' K. rewrite (Q _ _ _ K). exact Sp. Qed.
Lemma total_ret {A} (a : A) : total (io_ret a).
Proof. apply total_quiet; [intros w; exists (Ok a), w; split; reflexivity|intros w r w' [_ ->]; reflexivity]. Qed.
Lemma total_lift {A} (x : outcome cerr A) : total (io_lift x).
Proof. apply total_quiet; [intros w; exists x, w; split; reflexivity|intros w r w' [_ ->]; reflexivity]. Qed.
Lemma total_ui {A} (m : act A) : total (io_ui m).
Proof. apply total_quiet; [intros w; do 2 eexists; split; reflexivity|intros w r w' [_ ->]; reflexivity]. Qed.
Lemma total_bind {A B} (m : io A) (f : A -> io B) : total m -> (forall a, total (f a)) -> total (io_bind m f).
Proof.
  intros M F w Sp. destruct (M w Sp) as ((r & w1 & H) & Q). split.
  - destruct r as [a|e|].
    + destruct (F a w1 (Q _ _ H)) as ((r & w2 & K) & _). exists r, w2. left. eauto.
    + exists (Err e), w1. right. left. eauto.
    + exists Panic, w1. right. right. auto.
  - intros r' w' [(a & w2 & K1 & K2)|[(e & K & _)|(K & _)]]; [|eapply Q, K..]. eapply (F a w2); [eapply Q, K1|exact K2].
Qed.
Lemma total_try {A} (m : io A) : total m -> total (io_try m).
Proof.
  intros M w Sp. destruct (M w Sp) as ((r & w1 & H) & Q). split.
  - destruct r as [a|e|].
    + exists (Ok (Ok a)), w1. left. exists (Ok a). split; [discriminate|auto].
    + exists (Ok (Err e)), w1. left. exists (Err e). split; [discriminate|auto].
    + exists Panic, w1. right. auto.
  - intros r' w' [(x & _ & K & _)|(K & _)]; eapply Q, K.
Qed.

(** Few inodes come into use. *)
Lemma spacious_from f g l : (forall j, unused f j -> ~ In j l -> unused g j) -> spacious f -> spacious g.
Proof.
  intros H S l'. destruct (S (l ++ l')) as (j & U & Nj). exists j. split; [apply H; [exact U|]|]; intros I; apply Nj, in_or_app; auto.
Qed.
Lemma spacious_add f s i : spacious f -> spacious (add_file f s i).
Proof.
  apply (spacious_from _ _ [i]). intros j [U1 U2] N. assert (D : j <> i) by (intros ->; apply N; left; reflexivity). split; cbn [add_file f_entries f_nodes]; unfold update.
  - destruct (N.eqb_spec j i); [contradiction|exact U1].
  - intros t. destruct (t =? s); [congruence|apply U2].
Qed.
Lemma spacious_content f i b : spacious f -> spacious (set_content f i b).
Proof.
  apply (spacious_from _ _ []). intros j [U1 U2] _. unfold set_content. destruct (f_nodes f i) as [n|] eqn:E; [|split; assumption].
  split; cbn [f_entries f_nodes]; [|exact U2]. unfold update. destruct (N.eqb_spec j i) as [->|]; [congruence|exact U1].
Qed.
Lemma spacious_unlink f s : spacious f -> spacious (unlink f s).
Proof.
  apply (spacious_from _ _ []). intros j [U1 U2] _. unfold unlink. split; cbn [f_entries f_nodes].
  - destruct (f_entries f s) as [[i|l|]|] eqn:E; try exact U1. destruct (f_nodes f i) as [n|]; [|exact U1]. unfold update.
    destruct (N.eqb_spec j i) as [->|]; [destruct (U2 s E)|exact U1].
  - intros t. unfold update. destruct (t =? s); [discriminate|apply U2].
Qed.
Lemma spacious_write wr out w : spacious (w_fs w) -> spacious (w_fs (write_out wr out w)).
Proof.
  intros Sp. destruct wr as [i|]; cbn [write_out]; [|exact Sp]. destruct (f_nodes (w_fs w) i) as [n|]; [|exact Sp]. destruct (n_regular n); [|exact Sp].
  generalize (n_content n) as c. intros c. generalize (seq 1 (length out)) as l. intros l. revert w Sp. induction l as [|k l IH]; intros w Sp; cbn [fold_left]; [exact Sp|].
  apply IH. cbn [set_fs w_fs]. apply spacious_content, Sp.
Qed.

Lemma cerr_composite (e : cerr) : e = CComposite \/ e <> CComposite.
Proof. destruct e; try (right; discriminate). left. reflexivity. Qed.

Section Env.
Variable entry_of : names.
Variable lib : crypto_lib.
Hypothesis Hlib : lib_ok lib.
Lemma flat_one b : flat [RData b] = b.
Proof. destruct b; [reflexivity|]. cbn [flat]. apply app_nil_r. Qed.
Lemma ends_one b : ends_in_error [RData b] = false.
Proof. destruct b; reflexivity. Qed.

Lemma total_open_read p : total (open_read entry_of p).
Proof.
  apply total_quiet; [|intros w r w' [-> _]; reflexivity].
  intros w. destruct (entry_of p) as [s|] eqn:Es.
  2:{ exists (Err CIo), w. split; [reflexivity|]. left. split; [reflexivity|]. right. intros (s & t & e & E & _). congruence. }
  destruct (follow max_links (w_fs w) s) as [t|] eqn:Ef.
  2:{ exists (Err CIo), w. split; [reflexivity|]. left. split; [reflexivity|]. right. intros (s' & t & e & E & E' & _). congruence. }
  destruct (f_entries (w_fs w) t) as [[i|l|]|] eqn:Ee.
  - exists (Ok (ReadNode i)), w. split; [reflexivity|]. right. exists s, t. split; [exact Es|]. split; [exact Ef|]. left. eauto.
  - exfalso. revert Ee. clear -Ef. revert s Ef. unfold max_links. generalize 40%nat as n. induction n as [|n IH]; intros s; cbn [follow].
    + destruct (f_entries (w_fs w) s) as [[i|[u|]|]|] eqn:E; try discriminate; intros [= <-]; rewrite E; discriminate.
    + destruct (f_entries (w_fs w) s) as [[i|[u|]|]|] eqn:E; try discriminate; [intros [= <-]; rewrite E; discriminate|apply IH|intros [= <-]; rewrite E; discriminate..].
  - exists (Ok ReadDir), w. split; [reflexivity|]. right. exists s, t. auto 8.
  - exists (Err CIo), w. split; [reflexivity|]. left. split; [reflexivity|]. right. intros (s' & t' & e & E & E' & E''). congruence.
Qed.
Lemma total_metadata p : total (symlink_metadata entry_of p).
Proof.
  apply total_quiet; [|intros w r w' [-> _]; reflexivity].
  intros w. destruct (entry_of p) as [s|] eqn:Es.
  2:{ exists (Err CIo), w. split; [reflexivity|]. left. split; [reflexivity|]. right. intros (s & md & E & _). congruence. }
  destruct (metadata_of (w_fs w) s) as [md|] eqn:Em.
  - exists (Ok md), w. split; [reflexivity|]. right. eauto.
  - exists (Err CIo), w. split; [reflexivity|]. left. split; [reflexivity|]. right. intros (s' & md & E & E'). congruence.
Qed.
Lemma total_open_file p : total (open_file entry_of p).
Proof.
  apply total_bind; [apply total_open_read|]. intros rd. apply total_bind; [apply total_metadata|]. intros md. apply total_bind; [apply total_lift|]. intros _. apply total_ret.
Qed.
Lemma total_open_input i force : total (open_input entry_of i force).
Proof.
  destruct i as [p|p|]; cbn [open_input].
  - apply total_bind; [apply total_open_file|]. intros [rd md]. do 3 (apply total_bind; [apply total_lift|]; intros _). apply total_ret.
  - apply total_bind; [apply total_open_file|]. intros [rd md]. apply total_ret.
  - apply total_quiet; [|intros w r w' H; unfold open_stdin in H; destruct (u_input (w_ui w)); destruct H as [_ ->]; reflexivity].
    intros w. unfold open_stdin. destruct (u_input (w_ui w)); do 2 eexists; split; reflexivity.
Qed.
Lemma total_open_output o force : total (open_output entry_of o force).
Proof.
  destruct o as [q|]; cbn [open_output]; [|apply total_ret]. intros w Sp. destruct (Sp []) as (i & U & _). destruct force.
  - split.
    + destruct (entry_of q) as [s|] eqn:Es.
      2:{ exists (Err CIo), w. left. split; [reflexivity|]. split; [reflexivity|]. right. intros (s & t & E & _). congruence. }
      destruct (follow max_links (w_fs w) s) as [t|] eqn:Ef.
      2:{ exists (Err CIo), w. left. split; [reflexivity|]. split; [reflexivity|]. right. intros (s' & t & E & E' & _). congruence. }
      destruct (f_entries (w_fs w) t) as [[j|l|]|] eqn:Ee.
      * destruct (f_nodes (w_fs w) j) as [n|] eqn:En.
        -- do 2 eexists. right. exists s, t, j. split; [exact Es|]. split; [exact Ef|]. split; [reflexivity|]. right. exists n. split; [exact Ee|]. split; [exact En|reflexivity].
        -- exists (Err CIo), w. left. split; [reflexivity|]. split; [reflexivity|]. right. intros (s' & t' & E & E' & [(E2 & _)|(j' & n & E2 & E3)]); congruence.
      * exists (Err CIo), w. left. split; [reflexivity|]. split; [reflexivity|]. right. intros (s' & t' & E & E' & [(E2 & _)|(j' & n & E2 & E3)]); congruence.
      * exists (Err CIo), w. left. split; [reflexivity|]. split; [reflexivity|]. right. intros (s' & t' & E & E' & [(E2 & _)|(j' & n & E2 & E3)]); congruence.
      * do 2 eexists. right. exists s, t, i. split; [exact Es|]. split; [exact Ef|]. split; [reflexivity|]. left. auto.
    + intros r w' [(_ & -> & _)|(s & t & j & _ & _ & _ & [(_ & _ & ->)|(n & _ & _ & ->)])]; [exact Sp|apply spacious_add, Sp|].
      destruct (n_regular n); [apply spacious_content, Sp|exact Sp].
  - split.
    + destruct (entry_of q) as [s|] eqn:Es.
      2:{ exists (Err CIo), w. left. split; [reflexivity|]. split; [reflexivity|]. right. intros (s & t & E & _). congruence. }
      destruct (f_entries (w_fs w) s) as [e|] eqn:Ee.
      * exists (Err CIo), w. left. split; [reflexivity|]. split; [reflexivity|]. right. intros (s' & t' & E & E' & _). congruence.
      * do 2 eexists. right. exists s, i. auto.
    + intros r w' [(_ & -> & _)|(s & j & _ & _ & _ & _ & ->)]; [exact Sp|apply spacious_add, Sp].
Qed.
Lemma total_remove_cb p force : total (remove_cb entry_of p force).
Proof.
  apply total_bind.
  - apply total_try. intros w Sp. unfold remove_file. destruct (entry_of p) as [s|]; [|split; [do 2 eexists; split; reflexivity|intros r w' [_ ->]; exact Sp]].
    assert (X : (exists r w', (faulty entry_of = true /\ r = Err CIo /\ w' = refuse w s) \/ (r = Ok tt /\ w' = set_fs w (unlink (w_fs w) s))) /\
      forall r w', (faulty entry_of = true /\ r = @Err cerr unit CIo /\ w' = refuse w s) \/ (r = Ok tt /\ w' = set_fs w (unlink (w_fs w) s)) -> spacious (w_fs w')).
    { split; [do 2 eexists; right; split; reflexivity|]. intros r w' [(_ & _ & ->)|[_ ->]]; [exact Sp|apply spacious_unlink, Sp]. }
    destruct (f_entries (w_fs w) s) as [[]|]; [exact X|exact X|split; [do 2 eexists; split; reflexivity|intros r w' [_ ->]; exact Sp]..].
  - intros [[]|e|]; [apply total_ret| |apply total_ret]. destruct force; [apply total_ret|apply total_ui].
Qed.
Definition some_random : enc_random := mkRandom 0 (repeat x00 32) [] (fun _ => x00).
Lemma some_random_ok : random_ok some_random.
Proof. split; reflexivity. Qed.
Lemma total_convert d rd wr : total (convert entry_of lib d rd wr).
Proof.
  intros w Sp. split.
  - assert (P : exists src, provides entry_of (w_fs w) rd wr src).
    { destruct rd as [i| |s]; cbn [provides]; [|eauto..]. destruct (f_nodes (w_fs w) i) as [n|]; [|exists []; exact Logic.I].
      exists [RData (n_content n)]. intros _ _. rewrite ends_one. apply flat_one. }
    destruct P as [src P]. destruct (conversion_total lib Hlib d some_random src (mkSink [] None true false) some_random_ok) as (r0 & snk & C).
    do 2 eexists. exists some_random, src, None, true, r0, snk, O. split; [exact some_random_ok|]. split; [auto|]. split; [exact P|]. split; [exact C|]. left. split; reflexivity.
  - intros r w' (er & src & room & fl & r0 & snk & k & _ & _ & _ & _ & [(_ & ->)|(_ & _ & out & _ & ->)]); cbn [set_ui w_fs]; apply spacious_write, Sp.
Qed.
Lemma total_step {k n} st force d : total (step entry_of lib k n st force d).
Proof.
  apply total_bind.
  - apply total_bind.
    + apply total_try. apply total_bind; [apply total_ui|]. intros _. apply total_bind; [apply total_lift|]. intros o. apply total_bind; [apply total_open_input|]. intros rd.
      apply total_bind; [apply total_open_output|]. intros wr. apply total_ret.
    + intros [[[rd wr] cb]|e|]; [|apply total_ret|apply total_lift]. apply total_bind; [apply total_try, total_convert|]. intros r. apply total_ret.
  - intros [[[]|e|] cb]; [apply total_ret| |apply total_lift]. apply total_bind; [apply total_ui|]. intros _. apply total_bind; [|intros _; apply total_ret].
    destruct cb; [apply total_remove_cb|apply total_ret].
Qed.
Lemma total_process {k n} force d l : total (process entry_of lib k n l force d).
Proof.
  revert k. induction l as [|st l IH]; intros k; cbn [process]; [apply total_ret|]. apply total_bind; [apply total_step|]. intros [c e]. apply total_bind; [apply total_ui|]. intros _.
  apply total_bind; [apply IH|]. intros [c' e']. apply total_ret.
Qed.
Lemma total_remove_all force l : total (remove_all entry_of l force).
Proof. induction l as [|p l IH]; cbn [remove_all]; [apply total_ret|]. apply total_bind; [apply total_remove_cb|]. intros _. exact IH. Qed.
Lemma total_crypt streams policy force d : total (crypt_streams entry_of lib streams policy force d).
Proof.
  apply total_bind; [apply total_process|]. intros [cbs errs]. apply total_bind; [|intros _; apply total_lift]. destruct cbs as [|p cbs]; [apply total_ret|].
  apply total_bind; [destruct policy; [apply total_ret|apply total_ret|]|].
  - apply total_bind; [apply total_ui|]. intros a. apply total_ret.
  - intros []; [apply total_remove_all|apply total_ret].
Qed.
Variable sha512 : bytes -> bytes.
Lemma total_text wr t : total (write_text entry_of wr t).
Proof.
  intros w Sp. split; [do 2 eexists; left; split; reflexivity|]. intros r w' [(_ & ->)|(_ & _ & out & _ & ->)]; apply spacious_write, Sp.
Qed.
Lemma total_generate streams force : total (generate_key_pair_files entry_of lib sha512 streams force).
Proof.
  apply total_bind; [apply total_lift|]. intros cs. apply total_bind; [|intros e; apply total_lift]. generalize 0%nat (length streams). intros k n. revert k. induction streams as [|ks l IH]; intros k; cbn [generate_all]; [apply total_ret|].
  apply total_bind; [apply total_quiet; [intros w; do 2 eexists; split; [reflexivity|exists []; reflexivity]|intros w r w' [-> _]; reflexivity]|].
  intros [pk sk]. apply total_bind; [apply total_lift|]. intros [pt st]. do 2 (apply total_bind; [apply total_ui|]; intros _). apply total_bind.
  - apply total_try. apply total_bind.
    + destruct (k_public ks) as [p|]; [|apply total_ret]. apply total_bind; [apply total_ui|]. intros _. apply total_bind; [apply (total_open_output (OFile p))|]. intros wr. apply total_text.
    + intros _. apply total_bind; [apply total_ui|]. intros _. apply total_bind; [apply total_open_output|]. intros wr. apply total_text.
  - intros res. apply total_bind; [|intros errs; apply total_bind; [apply total_ui|]; intros _; apply total_bind; [apply IH|]; intros e; apply total_ret].
    destruct res as [[]|e|]; [apply total_ret|apply total_bind; [apply total_ui|]; intros _; apply total_ret|apply total_lift].
Qed.
Variable files : text -> option bytes.
Lemma total_main args ti to te w : spacious (w_fs w) -> exists status w', main entry_of lib sha512 files args ti to te w status w'.
Proof.
  intros Sp. assert (T : total (let! c := io_ui (parse_command_line sha512 files args ti to te) in run_command entry_of lib sha512 c)).
  { apply total_bind; [apply total_ui|]. intros [streams policy force d|streams force| |]; cbn [run_command]; [apply total_crypt|apply total_generate| |].
    all: apply total_quiet; [intros w0; do 2 eexists; exists []; split; [reflexivity|left; reflexivity]|intros w0 r w' (out & -> & _); reflexivity]. }
  destruct (T w Sp) as ((r & w1 & H) & _). destruct r as [[]|e|].
  - exists 0, w1, (Ok tt), w1. auto.
  - destruct (cerr_composite e) as [->|N].
    + exists 1, w1, (Err CComposite), w1. auto.
    + exists 1, (set_ui w1 (snd (print_error e (w_ui w1)))), (Err e), w1. split; [exact H|]. destruct e; auto. contradiction N; reflexivity.
  - exists 101, w1, Panic, w1. auto.
Qed.
End Env.

(** ** Encryption *)

Section Crypto.
Variable lib : crypto_lib.
Hypothesis Hlib : lib_ok lib.
Lemma encrypt_sure opts er ser cod chunk src r snk : random_ok er -> encrypt_header lib opts er = Ok (ser, cod, chunk) -> lenN ser <= MAX_HEADER_LEN -> ends_in_error src = false ->
  encrypt_stream lib opts er src (mkSink [] None true false) r snk -> r = Ok tt.
Proof.
  intros Hr Henc HL Ee H. unfold encrypt_stream in H. rewrite Henc in H.
  destruct (write_header_spec (mkSink [] None true false) ser HL) as (r1 & w1 & E & [(-> & A & _ & B)|(_ & Hn & _)]).
  2:{ exfalso. apply Hn. exact Logic.I. }
  rewrite E in H. destruct (write_header_ok _ _ _ E) as (_ & _ & F & _).
  destruct (cod_parts _ _ _ _ _ _ Hlib Henc) as (Hok & He & _).
  destruct (encrypt_result cod Hok He _ (c_pos _ _ _ _ _ _ Hr Henc) (c_64 _ _ _ _ _ _ Hr Henc) _ _ _ _ H) as (H1 & _).
  apply H1. split; [assumption|]. split; [|exact F]. apply B. exact Logic.I.
Qed.
Lemma convertible_encrypt subs n t fast b :
  (forall er, random_ok er -> exists ser cod chunk, encrypt_header lib (mkEncryptOptions subs n t fast) er = Ok (ser, cod, chunk) /\ lenN ser <= MAX_HEADER_LEN) ->
  convertible lib (DoEncrypt (Complex subs n t) fast) b.
Proof. intros H er src r snk Hr Ee _ C. destruct (H er Hr) as (ser & cod & chunk & E & L). eapply encrypt_sure; eassumption. Qed.

(** ** Restoring *)

Lemma header_first opts er ser cod chunk src w snk : random_ok er -> encrypt_header lib opts er = Ok (ser, cod, chunk) -> w_out w = [] ->
  encrypt_stream lib opts er src w (Ok tt) snk -> begins_with_header ser (w_out snk).
Proof.
  intros Hr He Ew C. destruct (encrypt_stream_ok lib opts er ser cod chunk Hlib Hr He _ _ _ C) as (L & -> & _). rewrite Ew. cbn [app].
  exists (frame_of ser). eexists. split; [apply frame_spec; [eapply N.le_lt_trans; [exact L|reflexivity]|reflexivity]|reflexivity].
Qed.
Lemma conversion_restored subs n t fast b c : let opts := mkEncryptOptions subs n t fast in
  wf_cred (expression opts) -> is_conversion lib (DoEncrypt (Complex subs n t) fast) b c ->
  exists er ser cod chunk, random_ok er /\ encrypt_header lib opts er = Ok (ser, cod, chunk) /\ begins_with_header ser c /\
    forall D, Forall (decryption_cred (co_cs cod)) D ->
      no_accident (co_cs cod) (fst (cs_keypair (co_cs cod) (er_seed er))) D (leaves (expression opts)) (header_keys ser) ->
      (sat (co_cs cod) D (expression opts) -> convertible lib (DoDecrypt D) c) /\
      (forall c', is_conversion lib (DoDecrypt D) c c' -> sat (co_cs cod) D (expression opts) /\ c' = b).
Proof.
  intros opts Hwf (er & src & room & fl & snk & Hr & Ee & Fb & C & Ec). cbn [conversion] in C. fold opts in C.
  destruct (encrypt_header lib opts er) as [[[ser cod] chunk]| |] eqn:Henc; [|unfold encrypt_stream in C; rewrite Henc in C; destruct C; discriminate..].
  exists er, ser, cod, chunk. split; [exact Hr|]. split; [exact Henc|].
  split; [rewrite Ec; eapply header_first; try eassumption; reflexivity|]. intros D HD Ha.
  assert (Rd : forall src2 v r v', ends_in_error src2 = false -> flat src2 = c -> decrypt_stream lib D src2 v r v' ->
    (sat (co_cs cod) D (expression opts) /\ (r = Ok tt <-> room_for v (length (flat src)) /\ w_flush_ok v = true) /\
     (r = Ok tt -> w_out v' = w_out v ++ flat src /\ w_flushed v' = true)) \/
    (~ sat (co_cs cod) D (expression opts) /\ r = Err EInsufficientCredentials /\ v' = v)).
  { intros src2 v r v' E2 F2 H2. eapply file_round; try eassumption. cbn [w_out app]. congruence. }
  split.
  - intros Hs er2 src2 r v' _ E2 F2 H2. cbn [conversion] in H2. destruct (Rd _ _ _ _ E2 F2 H2) as [(_ & K & _)|(K & _)]; [|contradiction]. apply K. split; [exact Logic.I|reflexivity].
  - intros c' (er2 & src2 & room2 & fl2 & snk2 & _ & E2 & F2 & H2 & ->). cbn [conversion] in H2.
    destruct (Rd _ _ _ _ E2 F2 H2) as [(Hs & _ & K)|(_ & K & _)]; [|discriminate K]. split; [exact Hs|]. destruct (K eq_refl) as [-> _]. cbn [w_out app]. exact Fb.
Qed.
End Crypto.

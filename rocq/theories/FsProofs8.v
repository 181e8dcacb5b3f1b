(** Proofs that a failing file does not influence the others: simulation of runs that differ in the history of the
    terminal. *)
From Coq.Strings Require Import Byte String.
From Coq Require Import List NArith ZArith Bool PeanoNat Lia.
From Verif Require Import Base BaseFacts Shamir Errors Io HeaderIoSpec StreamSpec Text Util CliErrors Crypto HeaderCrypto CredSpec FileCrypto Ui UiSpec UiProofs UiProofs2 Paths Cli Fs Commands FsSpec FsProofs ConvProofs FsProofs2 FsProofs3 FsProofs4 FsProofs5 FsProofs6.
Import ListNotations.
Local Open Scope N_scope.

(** The same terminal, which always works, but for what was printed. *)
Definition ui_alike (u v : ui) : Prop :=
  u_input u = u_input v /\ u_input_is_tty u = u_input_is_tty v /\ u_output_is_tty u = u_output_is_tty v /\ u_verbosity u = u_verbosity v /\
  u_progress_enabled u = u_progress_enabled v /\ u_room u = None /\ u_room v = None.
Definition act_sim {A} (m : act A) : Prop := forall u v, ui_alike u v -> fst (m u) = fst (m v) /\ ui_alike (snd (m u)) (snd (m v)).

Lemma alike_log u v e e' : ui_alike u v -> ui_alike (log u e) (log v e').
Proof. exact (fun H => H). Qed.
Lemma act_emit m : act_sim (emit m).
Proof. intros u v H. pose proof H as (_ & _ & _ & _ & _ & A & B). unfold emit. rewrite A, B. split; [reflexivity|exact H]. Qed.
Lemma alike_will u v n : ui_alike u v -> will_print u n = will_print v n.
Proof. intros (_ & _ & _ & A & _). unfold will_print. rewrite A. reflexivity. Qed.
Lemma alike_can u v : ui_alike u v -> can_read u = can_read v.
Proof. intros H. pose proof H as (A & B & C & _). unfold can_read. rewrite A, B, C, (alike_will _ _ _ H). reflexivity. Qed.
Lemma act_println n t : act_sim (ui_println n t).
Proof. intros u v H. unfold ui_println. rewrite (alike_will _ _ n H). destruct (will_print v n); [apply act_emit, H|split; [reflexivity|exact H]]. Qed.
Lemma act_print_error e : act_sim (print_error e).
Proof. intros u v H. unfold print_error. rewrite (alike_will _ _ _ H). destruct (will_print v _); [apply act_emit, H|split; [reflexivity|exact H]]. Qed.
Lemma act_interactive t : act_sim (println_interactive t).
Proof. intros u v H. unfold println_interactive. rewrite (alike_will _ _ _ H). destruct (will_print v _); [apply act_emit, H|split; [reflexivity|exact H]]. Qed.
Lemma act_progress n : act_sim (println_progress n).
Proof.
  intros u v H. unfold println_progress. pose proof H as (_ & _ & _ & _ & P & _). rewrite P, (alike_will _ _ _ H).
  destruct (u_progress_enabled v); [destruct (will_print v n); [apply act_emit, H|]|]; split; try reflexivity; exact H.
Qed.
Lemma act_ignore {A} (m : act A) : act_sim m -> act_sim (ignore m).
Proof.
  intros M u v H. destruct (M u v H) as [E K]. unfold ignore. destruct (m u) as [[a| |] u1], (m v) as [[b| |] v1]; cbn [fst snd] in *; try discriminate E; split; try reflexivity; exact K.
Qed.
Lemma act_bind {A B} (m : act A) (f : A -> act B) : act_sim m -> (forall a, act_sim (f a)) -> act_sim (bind_act m f).
Proof.
  intros M F u v H. destruct (M u v H) as [E K]. unfold bind_act. destruct (m u) as [[a| |] u1], (m v) as [[b| |] v1]; cbn [fst snd] in *; try discriminate E.
  - injection E as ->. apply F, K.
  - injection E as ->. split; [reflexivity|exact K].
  - split; [reflexivity|exact K].
Qed.
Lemma act_ret {A} (a : A) : act_sim (ret a).
Proof. intros u v H. split; [reflexivity|exact H]. Qed.
Lemma act_lift {A} (x : outcome cerr A) : act_sim (lift x).
Proof. intros u v H. split; [reflexivity|exact H]. Qed.
Lemma act_read_prompt p : act_sim (read_prompt p).
Proof.
  intros u v H. unfold read_prompt. rewrite (alike_can _ _ H). destruct (negb (can_read v)); [split; [reflexivity|exact H]|].
  revert u v H. apply act_bind; [apply act_emit|]. intros _ u v H. pose proof H as (A & _). rewrite A.
  destruct (u_input v) as [s|] eqn:Ev; [|split; [reflexivity|exact H]].
  destruct (read_chars (S (source_size s)) s [] []) as [rr s']. split; [reflexivity|].
  destruct H as (_ & B & C & D & E & F & G). destruct rr; unfold ui_alike; cbn; auto 10.
Qed.
Lemma act_prompt n p b : act_sim (read_prompt_bool n p b).
Proof.
  intros u v H. unfold read_prompt_bool. rewrite (alike_can _ _ H), (alike_will _ _ _ H). destruct (_ || _); [split; [reflexivity|exact H]|].
  assert (input_size u = input_size v) as -> by (unfold input_size; rewrite (proj1 H); reflexivity).
  generalize (S (input_size v)) as fuel. intros fuel. revert u v H. apply act_bind; [|intros; apply act_ret].
  induction fuel as [|fuel IH]; [apply act_lift|]. cbn [prompt_loop]. apply act_bind; [apply act_read_prompt|]. intros r. cbv zeta.
  repeat (destruct (_ || _) || destruct (text_eqb _ _)); try apply act_ret. apply act_bind; [apply act_interactive|]. intros _. exact IH.
Qed.
Lemma progress_alike k : forall u v, ui_alike u v -> ui_alike (progress_lines k u) (progress_lines k v).
Proof. induction k as [|k IH]; intros u v H; [exact H|]. cbn [progress_lines]. apply IH. apply act_progress, H. Qed.

(** The same files. *)
Definition alike (w v : world) : Prop := fs_eq (w_fs v) (w_fs w) /\ ui_alike (w_ui w) (w_ui v).

(** Two computations that do the same as far as files, results and the state of the terminal are concerned; they can print
    different texts. *)
Definition sims {A} (m m' : io A) : Prop := forall w r w' v, m w r w' -> alike w v -> exists v', m' v r v' /\ alike w' v'.
Definition sim {A} (m : io A) : Prop := sims m m.
Lemma sim_ret {A} (a : A) : sim (io_ret a).
Proof. intros w r w' v [-> ->] H. exists v. split; [split; reflexivity|exact H]. Qed.
Lemma sim_lift {A} (x : outcome cerr A) : sim (io_lift x).
Proof. intros w r w' v [-> ->] H. exists v. split; [split; reflexivity|exact H]. Qed.
Lemma sim_ui {A} (m : act A) : act_sim m -> sim (io_ui m).
Proof.
  intros M w r w' v [-> ->] (A1 & B). destruct (M _ _ B) as [E K]. exists (set_ui v (snd (m (w_ui v)))). split; [split; [exact E|reflexivity]|].
  split; [exact A1|exact K].
Qed.
Lemma sims_bind {A B} (m m' : io A) (f f' : A -> io B) : sims m m' -> (forall a, sims (f a) (f' a)) -> sims (io_bind m f) (io_bind m' f').
Proof.
  intros M F w r w' v [(a & w1 & H1 & H2)|[(e & H & ->)|(H & ->)]] K.
  - destruct (M _ _ _ _ H1 K) as (v1 & V1 & K1). destruct (F a _ _ _ _ H2 K1) as (v' & V & K'). exists v'. split; [left; eauto|exact K'].
  - destruct (M _ _ _ _ H K) as (v1 & V1 & K1). exists v1. split; [right; left; eauto|exact K1].
  - destruct (M _ _ _ _ H K) as (v1 & V1 & K1). exists v1. split; [right; right; eauto|exact K1].
Qed.
Lemma sim_bind {A B} (m : io A) (f : A -> io B) : sim m -> (forall a, sim (f a)) -> sim (io_bind m f).
Proof. apply sims_bind. Qed.
Lemma sims_try {A} (m m' : io A) : sims m m' -> sims (io_try m) (io_try m').
Proof.
  intros M w r w' v [(x & N & H & ->)|(H & ->)] K; destruct (M _ _ _ _ H K) as (v1 & V1 & K1); exists v1; (split; [|exact K1]); [left; eauto|right; eauto].
Qed.
Lemma sim_try {A} (m : io A) : sim m -> sim (io_try m).
Proof. apply sims_try. Qed.
Lemma sims_println n t t' : sims (io_ui (ignore (ui_println n t))) (io_ui (ignore (ui_println n t'))).
Proof.
  intros w r w' v [-> ->] (A1 & B). exists (set_ui v (snd (ignore (ui_println n t') (w_ui v)))).
  assert (X : fst (ignore (ui_println n t) (w_ui w)) = fst (ignore (ui_println n t') (w_ui v)) /\
    ui_alike (snd (ignore (ui_println n t) (w_ui w))) (snd (ignore (ui_println n t') (w_ui v)))).
  { unfold ignore, ui_println. rewrite (alike_will _ _ n B). destruct (will_print (w_ui v) n); [|split; [reflexivity|exact B]].
    pose proof B as (_ & _ & _ & _ & _ & X & Y). unfold emit. rewrite X, Y. split; [reflexivity|exact B]. }
  split; [split; [apply X|reflexivity]|]. split; [exact A1|apply X].
Qed.

(** ** File systems *)

Lemma eq_follow n : forall f g s, fs_eq f g -> follow n g s = follow n f s.
Proof. induction n as [|n IH]; intros f g s E; cbn [follow]; rewrite (proj1 E); [reflexivity|]. destruct (f_entries f s) as [[|[t|]|]|]; auto. Qed.
Lemma eq_add f g s i : fs_eq f g -> fs_eq (add_file f s i) (add_file g s i).
Proof. intros [A B]. split; intros x; cbn [add_file f_entries f_nodes]; unfold update; destruct (x =? _); auto. Qed.
Lemma eq_set f g i b : fs_eq f g -> fs_eq (set_content f i b) (set_content g i b).
Proof.
  intros [A B]. unfold set_content. rewrite B. destruct (f_nodes f i) as [n|]; [|split; assumption]. split; intros x; cbn [f_entries f_nodes]; [apply A|].
  unfold update. destruct (x =? i); auto.
Qed.
Lemma eq_unlink f g s : fs_eq f g -> fs_eq (unlink f s) (unlink g s).
Proof.
  intros [A B]. split; intros x; cbn [unlink f_entries f_nodes]; unfold update.
  - destruct (x =? s); auto.
  - rewrite A. destruct (f_entries f s) as [[i| |]|]; auto. rewrite B. destruct (f_nodes f i) as [n|]; auto. destruct (x =? i); auto.
Qed.
Lemma eq_meta f g s : fs_eq f g -> metadata_of g s = metadata_of f s.
Proof. intros [A B]. unfold metadata_of. rewrite A. destruct (f_entries f s) as [[i| |]|]; try reflexivity. rewrite B. reflexivity. Qed.
Lemma eq_sym_fs f g : fs_eq f g -> fs_eq g f.
Proof. intros [A B]. split; intros; symmetry; auto. Qed.
Lemma eq_trans_fs f g h : fs_eq f g -> fs_eq g h -> fs_eq f h.
Proof. intros [A B] [C D]. split; intros; congruence. Qed.
Lemma eq_refl_fs f : fs_eq f f.
Proof. split; reflexivity. Qed.

Lemma write_alike wr d w v : alike w v -> alike (write_out wr d w) (write_out wr d v).
Proof.
  intros H. destruct wr as [i|].
  - cbn [write_out]. destruct H as (E & H). rewrite (proj2 E). destruct (f_nodes (w_fs v) i) as [n|] eqn:En; [|exact (conj E H)].
    destruct (n_regular n); [|exact (conj E H)]. generalize (seq 1 (length d)). intros l. clear En. revert w v E H.
    induction l as [|k l IH]; intros w v E H; [exact (conj E H)|]. cbn [fold_left]. apply IH; [apply eq_set, E|exact H].
  - exact H.
Qed.

Section Env.
Variable entry_of : names.
Variable lib : crypto_lib.

Lemma sim_open_read p : sim (open_read entry_of p).
Proof.
  intros w r w' v [-> H] K. exists v. split; [|exact K]. split; [reflexivity|]. destruct H as [[-> [Fa|N]]|(s & t & Es & F & H)].
  { left. split; [reflexivity|left; exact Fa]. }
  { left. split; [reflexivity|right]. intros (s & t & e & A & B & C). apply N. exists s, t, e. rewrite (eq_follow _ _ _ _ (proj1 K)), (proj1 (proj1 K)). auto. }
  right. exists s, t.
  rewrite (eq_follow _ _ _ _ (proj1 K)) in F. rewrite (proj1 (proj1 K)) in H. auto.
Qed.
Lemma sim_metadata p : sim (symlink_metadata entry_of p).
Proof.
  intros w r w' v [-> H] K. exists v. split; [|exact K]. split; [reflexivity|]. destruct H as [[-> [Fa|N]]|(s & md & Es & F & H)].
  { left. split; [reflexivity|left; exact Fa]. }
  { left. split; [reflexivity|right]. intros (s & md & A & B). apply N. exists s, md. rewrite (eq_meta _ _ _ (proj1 K)). auto. }
  right. exists s, md.
  rewrite (eq_meta _ _ _ (proj1 K)) in F. auto.
Qed.
Lemma sim_open_file p : sim (open_file entry_of p).
Proof.
  apply sim_bind; [apply sim_open_read|]. intros rd. apply sim_bind; [apply sim_metadata|]. intros md. apply sim_bind; [apply sim_lift|]. intros _. apply sim_ret.
Qed.
Lemma sim_open_input i force : sim (open_input entry_of i force).
Proof.
  destruct i as [p|p|]; cbn [open_input].
  - apply sim_bind; [apply sim_open_file|]. intros [rd md]. do 3 (apply sim_bind; [apply sim_lift|]; intros _). apply sim_ret.
  - apply sim_bind; [apply sim_open_file|]. intros [rd md]. apply sim_ret.
  - intros w r w' v H (A & B). unfold open_stdin in *. rewrite (proj1 B) in H. destruct (u_input (w_ui v)) as [s|] eqn:E; destruct H as [-> ->].
    + exists (set_ui v (set_input (w_ui v) None)). split; [split; reflexivity|]. split; [exact A|].
      destruct B as (B1 & B2 & B3 & B4 & B5 & B6 & B7). unfold ui_alike. cbn. auto 10.
    + exists v. split; [split; reflexivity|]. split; [exact A|exact B].
Qed.
Lemma sim_open_output o : sim (open_output entry_of o false).
Proof.
  destruct o as [q|]; cbn [open_output]; [|apply sim_ret].
  intros w r w' v [(-> & -> & Fa)|(s & i & Es & E1 & [E2 E3] & -> & ->)] K.
  - exists v. split; [|exact K]. left. split; [reflexivity|]. split; [reflexivity|]. destruct Fa as [Fa|N]; [left; exact Fa|right].
    intros (s & i & A & B & C & D). apply N. exists s, i. destruct K as [[K1 K2] _]. unfold unused. rewrite K1, K2. repeat split; auto. intros t. rewrite K1. apply D.
  - exists (set_fs v (add_file (w_fs v) s i)). destruct K as (A & B). split.
    + right. exists s, i. rewrite (proj1 A) in E1. rewrite (proj2 A) in E2. split; [exact Es|]. split; [exact E1|]. split; [split; [exact E2|intros t; rewrite <- (proj1 A); apply E3]|]. auto.
    + split; [apply eq_add, A|exact B].
Qed.
Lemma sim_convert d rd wr : sim (convert entry_of lib d rd wr).
Proof.
  intros w r w' v (er & src & room & fl & r0 & snk & k & Hr & Hk & Hp & Hc & H) K.
  assert (Hp' : provides entry_of (w_fs v) rd wr src) by (unfold provides in *; destruct rd; try exact Hp; rewrite <- (proj2 (proj1 K)); exact Hp).
  assert (X : forall out, alike (set_ui (write_out wr out w) (progress_lines k (w_ui (write_out wr out w)))) (set_ui (write_out wr out v) (progress_lines k (w_ui (write_out wr out v))))).
  { intros out. destruct (write_alike wr out _ _ K) as (A & B). split; [exact A|]. apply progress_alike, B. }
  destruct H as [(-> & ->)|(-> & Pp & out & Po & ->)].
  - eexists. split; [|apply X]. exists er, src, room, fl, r0, snk, k. auto 10.
  - eexists. split; [|apply X]. exists er, src, room, fl, r0, snk, k. split; [exact Hr|]. split; [exact Hk|]. split; [exact Hp'|]. split; [exact Hc|]. right. split; [reflexivity|]. split; [exact Pp|]. exists out. auto.
Qed.
Lemma sim_remove_file p : sim (remove_file entry_of p).
Proof.
  intros w r w' v H K. unfold remove_file in *. destruct (entry_of p) as [s|]; [|destruct H as [-> ->]; exists v; split; [auto|exact K]].
  rewrite (proj1 (proj1 K)) in H. destruct (f_entries (w_fs v) s) as [en|] eqn:Es; [|destruct H as [-> ->]; exists v; split; [auto|exact K]].
  assert (X : (faulty entry_of = true /\ r = Err CIo /\ w' = refuse w s) \/ (r = Ok tt /\ w' = set_fs w (unlink (w_fs w) s)) ->
    exists v', ((faulty entry_of = true /\ r = Err CIo /\ v' = refuse v s) \/ (r = Ok tt /\ v' = set_fs v (unlink (w_fs v) s))) /\ alike w' v').
  { intros [(Fa & -> & ->)|[-> ->]]; [exists (refuse v s)|exists (set_fs v (unlink (w_fs v) s))]; (split; [auto|]).
    - exact K.
    - destruct K as (A & B). split; [apply eq_unlink, A|exact B]. }
  destruct en as [i|t|]; [exact (X H)|exact (X H)|]. destruct H as [-> ->]. exists v. split; [auto|exact K].
Qed.
Lemma sim_remove_cb p force : sim (remove_cb entry_of p force).
Proof.
  apply sim_bind; [apply sim_try, sim_remove_file|]. intros [[]|e|]; [apply sim_ret| |apply sim_ret]. destruct force; [apply sim_ret|].
  apply sim_ui, act_ignore, act_print_error.
Qed.
Lemma sims_step {k n k' n'} st d : sims (step entry_of lib k n st false d) (step entry_of lib k' n' st false d).
Proof.
  apply sims_bind.
  - apply sims_bind.
    + apply sims_try. apply sims_bind; [apply sims_println|]. intros _. apply sim_bind; [apply sim_lift|]. intros o.
      apply sim_bind; [apply sim_open_input|]. intros rd. apply sim_bind; [apply sim_open_output|]. intros wr. apply sim_ret.
    + intros [[[rd wr] cb]|e|]; [|apply sim_ret|apply sim_lift]. apply sim_bind; [apply sim_try, sim_convert|]. intros r. apply sim_ret.
  - intros [[[]|e|] cb]; [apply sim_ret| |apply sim_lift]. apply sim_bind; [apply sim_ui, act_ignore, act_print_error|]. intros _.
    apply sim_bind; [destruct cb; [apply sim_remove_cb|apply sim_ret]|]. intros _. apply sim_ret.
Qed.
Lemma sim_step {k n} st d : sim (step entry_of lib k n st false d).
Proof. apply sims_step. Qed.
Lemma sims_process {k n k' n'} d l : sims (process entry_of lib k n l false d) (process entry_of lib k' n' l false d).
Proof.
  revert k k'. induction l as [|st l IH]; intros k k'; [apply sim_ret|]. cbn [process]. apply sims_bind; [apply sims_step|]. intros [c e].
  apply sims_bind; [apply sim_ui, act_println|]. intros _. apply sims_bind; [apply IH|]. intros [c' e']. apply sim_ret.
Qed.
Lemma sim_process {k n} d l : sim (process entry_of lib k n l false d).
Proof. apply sims_process. Qed.
Lemma sim_remove_all l force : sim (remove_all entry_of l force).
Proof. induction l as [|p l IH]; [apply sim_ret|]. cbn [remove_all]. apply sim_bind; [apply sim_remove_cb|]. intros _. exact IH. Qed.

(** ** A terminal that works *)

Definition works (u : ui) : Prop := u_room u = None.
Lemma alike_refl w : works (w_ui w) -> alike w w.
Proof. intros R. split; [apply eq_refl_fs|]. unfold ui_alike. auto 10. Qed.
Lemma alike_works w v : alike w v -> works (w_ui w) /\ works (w_ui v).
Proof. intros (_ & (_ & _ & _ & _ & _ & A & B)). split; assumption. Qed.
Lemma alike_trans w v x : alike w v -> alike v x -> alike w x.
Proof. intros ([A B] & C) ([A' B'] & C'). split; [split; intros y; (etransitivity; [apply A || apply B|apply A' || apply B'])|]. destruct C as (C1 & C2 & C3 & C4 & C5 & C6 & C7), C' as (D1 & D2 & D3 & D4 & D5 & D6 & D7). unfold ui_alike. repeat split; congruence. Qed.
Lemma sim_works {A} (m : io A) w r w' : sim m -> m w r w' -> works (w_ui w) -> works (w_ui w').
Proof. intros M H R. destruct (M _ _ _ _ H (alike_refl _ R)) as (v' & _ & K). apply (alike_works _ _ K). Qed.
Lemma process_works {k n} d l : forall w e w', works (w_ui w) -> ~ process entry_of lib k n l false d w (Err e) w'.
Proof.
  revert k. induction l as [|st l IH]; intros k w e w' R H; [destruct H as [E _]; discriminate E|]. cbn [process] in H.
  destruct H as [([c0 e0] & w1 & H1 & H)|[(e1 & H & _)|(_ & E)]]; [| |discriminate E].
  - pose proof (sim_works _ _ _ _ (sim_step st d) H1 R) as R1.
    destruct H as [(u & w2 & H2 & H)|[(e1 & H & E)|(_ & E)]]; [| |discriminate E].
    + pose proof (sim_works _ _ _ _ (sim_ui _ (act_println 0 [])) H2 R1) as R2.
      destruct H as [([c1 e1] & w3 & _ & [E _])|[(e1 & H & E)|(_ & E)]]; [discriminate E| |discriminate E]. eapply IH; eassumption.
    + destruct H as [E2 _]. pose proof (println_result [] (w_ui w1)) as Z. rewrite <- E2 in Z. destruct Z as [_ Z]. exact (Z R1).
  - assert (P : process entry_of lib k n [st] false d w (Err e1) w') by (right; left; eauto). apply process_err in P as ->.
    clear IH. unfold step in H. destruct H as [([res cb] & w1 & _ & H)|[(e2 & H & _)|(_ & E)]]; [| |discriminate E].
    + destruct res as [[]|e2|]; [destruct H as [E _]; discriminate E| |destruct H as [E _]; discriminate E].
      destruct H as [(u & w2 & _ & H)|[(e3 & [H _] & _)|(_ & E)]]; [| |discriminate E].
      * destruct H as [(u' & w3 & _ & [E _])|[(e3 & H & _)|(_ & E)]]; [discriminate E| |discriminate E].
        destruct cb as [p|]; [|destruct H as [E _]; discriminate E]. apply remove_cb_spec in H as [E _]. discriminate E.
      * unfold ignore in H. destruct (print_error e2 (w_ui w1)) as [[| |] ?]; discriminate H.
    + unfold attempt in H. destruct H as [(o & w1 & _ & H)|[(e3 & H & _)|(_ & E)]]; [| |discriminate E].
      * destruct o as [[[rd wr] cb]|e3|]; [|destruct H as [E _]; discriminate E..].
        destruct H as [(x & w2 & _ & [E _])|[(e3 & H & _)|(_ & E)]]; [discriminate E| |discriminate E].
        destruct H as [(y & _ & _ & E)|(_ & E)]; discriminate E.
      * destruct H as [(y & _ & _ & E)|(_ & E)]; discriminate E.
Qed.

(** ** What a step does to the terminal, when the input is not the standard input *)

Definition tame {A} (m : io A) : Prop := forall w r w', m w r w' -> works (w_ui w) -> ui_alike (w_ui w) (w_ui w') .
Lemma ui_alike_refl u : works u -> ui_alike u u.
Proof. intros R. unfold ui_alike. auto 10. Qed.
Lemma ui_alike_trans u v x : ui_alike u v -> ui_alike v x -> ui_alike u x.
Proof. unfold ui_alike. intros (A1 & A2 & A3 & A4 & A5 & A6 & A7) (B1 & B2 & B3 & B4 & B5 & B6 & B7). repeat split; congruence. Qed.
Lemma ui_alike_sym u v : ui_alike u v -> ui_alike v u.
Proof. unfold ui_alike. intros (A1 & A2 & A3 & A4 & A5 & A6 & A7). repeat split; congruence. Qed.
Lemma tame_bind {A B} (m : io A) (f : A -> io B) : tame m -> (forall a, tame (f a)) -> tame (io_bind m f).
Proof.
  intros M F w r w' [(a & w1 & H1 & H2)|[(e & H & _)|(H & _)]] R; [|eapply M; eassumption..].
  pose proof (M _ _ _ H1 R) as K1. eapply ui_alike_trans; [exact K1|]. eapply F; [exact H2|]. apply K1.
Qed.
Lemma tame_try {A} (m : io A) : tame m -> tame (io_try m).
Proof. intros M w r w' [(x & _ & H & _)|(H & _)]; eapply M, H. Qed.
Lemma tame_ret {A} (a : A) : tame (io_ret a).
Proof. intros w r w' [_ ->]. apply ui_alike_refl. Qed.
Lemma tame_lift {A} (x : outcome cerr A) : tame (io_lift x).
Proof. intros w r w' [_ ->]. apply ui_alike_refl. Qed.
Lemma tame_same {A} (m : io A) : (forall w r w', m w r w' -> w_ui w' = w_ui w) -> tame m.
Proof. intros H w r w' K R. rewrite (H _ _ _ K). apply ui_alike_refl, R. Qed.
Lemma emit_tame m u : works u -> ui_alike u (snd (emit m u)).
Proof. intros R. unfold emit. rewrite R. exact (ui_alike_refl u R). Qed.
Lemma tame_println n t : tame (io_ui (ui_println n t)).
Proof. intros w r w' [_ ->] R. cbn. unfold ui_println. destruct (will_print _ _); [apply emit_tame, R|apply ui_alike_refl, R]. Qed.
Lemma tame_ignore {A} (m : act A) : tame (io_ui m) -> tame (io_ui (ignore m)).
Proof.
  intros M w r w' [_ ->] R. specialize (M w _ _ (conj eq_refl eq_refl) R). cbn in *. unfold ignore. destruct (m (w_ui w)) as [[| |] ?]; exact M.
Qed.
Lemma tame_print_error e : tame (io_ui (print_error e)).
Proof. intros w r w' [_ ->] R. cbn. unfold print_error. destruct (will_print _ _); [apply emit_tame, R|apply ui_alike_refl, R]. Qed.
Lemma tame_progress k : forall u, works u -> ui_alike u (progress_lines k u).
Proof.
  induction k as [|k IH]; intros u R; [apply ui_alike_refl, R|]. cbn [progress_lines].
  assert (K : ui_alike u (snd (println_progress 0 u))) by (unfold println_progress; destruct (u_progress_enabled u); [destruct (will_print u 0); [apply emit_tame, R|]|]; apply ui_alike_refl, R).
  eapply ui_alike_trans; [exact K|]. apply IH, K.
Qed.
Lemma tame_open_file p : tame (open_file entry_of p).
Proof.
  apply tame_bind; [apply tame_same; intros w r w' [-> _]; reflexivity|]. intros rd. apply tame_bind; [apply tame_same; intros w r w' [-> _]; reflexivity|]. intros md.
  apply tame_bind; [apply tame_lift|]. intros _. apply tame_ret.
Qed.
Lemma tame_step {k n} st d : s_input st <> IStdin -> tame (step entry_of lib k n st false d).
Proof.
  intros Ns. apply tame_bind.
  - apply tame_bind.
    + apply tame_try. apply tame_bind; [apply tame_ignore, tame_println|]. intros _. apply tame_bind; [apply tame_lift|]. intros o.
      apply tame_bind.
      { destruct (s_input st) as [p|p|]; cbn [open_input]; [| |contradiction Ns; reflexivity].
        - apply tame_bind; [apply tame_open_file|]. intros [rd md]. do 3 (apply tame_bind; [apply tame_lift|]; intros _). apply tame_ret.
        - apply tame_bind; [apply tame_open_file|]. intros [rd md]. apply tame_ret. }
      intros rd. apply tame_bind; [|intros wr; apply tame_ret]. destruct o as [q|]; cbn [open_output]; [|apply tame_ret].
      apply tame_same. intros w r w' [(_ & -> & _)|(s & i & _ & _ & _ & _ & ->)]; reflexivity.
    + intros [[[rd wr] cb]|e|]; [|apply tame_ret|apply tame_lift]. apply tame_bind; [|intros r; apply tame_ret]. apply tame_try.
      intros w r w' (er & src & room & fl & r0 & snk & lines & _ & _ & _ & _ & [(_ & ->)|(_ & _ & out & _ & ->)]) R; cbn [set_ui w_ui]; rewrite write_out_ui; apply tame_progress, R.
  - intros [[[]|e|] cb]; [apply tame_ret| |apply tame_lift]. apply tame_bind; [apply tame_ignore, tame_print_error|]. intros _.
    apply tame_bind; [|intros _; apply tame_ret]. destruct cb as [p|]; [|apply tame_ret]. apply tame_bind.
    + apply tame_try, tame_same. intros w r w' H. unfold remove_file in H. destruct (entry_of p) as [s|]; [|destruct H as [_ ->]; reflexivity].
      destruct (f_entries (w_fs w) s) as [[]|]; [destruct H as [(_ & _ & ->)|[_ ->]]; reflexivity..|destruct H as [_ ->]; reflexivity|destruct H as [_ ->]; reflexivity].
    + intros [[]|e'|]; [apply tame_ret| |apply tame_ret]. apply tame_ignore, tame_print_error.
Qed.

(** ** Lists *)

Lemma process_app {k n} d l1 l2 : forall w cbs errs w', process entry_of lib k n (l1 ++ l2) false d w (Ok (cbs, errs)) w' <->
  exists c1 e1 c2 e2 w1, process entry_of lib k n l1 false d w (Ok (c1, e1)) w1 /\ process entry_of lib (k + length l1) n l2 false d w1 (Ok (c2, e2)) w' /\
    cbs = c1 ++ c2 /\ errs = e1 ++ e2.
Proof.
  revert k. induction l1 as [|st l1 IH]; intros k w cbs errs w'.
  - cbn [length]. rewrite Nat.add_0_r. split; [intros H; exists [], [], cbs, errs, w; split; [split; reflexivity|auto]|]. intros (c1 & e1 & c2 & e2 & w1 & [E ->] & H & -> & ->). injection E as -> ->. exact H.
  - cbn [app process length]. rewrite Nat.add_succ_r, <- Nat.add_succ_l. split.
    + intros H. apply bind_ok_inv in H as ([c0 e0] & w1 & H1 & H). apply bind_ok_inv in H as (u & w2 & H2 & H). apply bind_ok_inv in H as ([c e] & w3 & H3 & [E ->]).
      injection E as -> ->. apply IH in H3 as (c1 & e1 & c2 & e2 & w4 & A & B & -> & ->). exists (c0 ++ c1), (e0 ++ e1), c2, e2, w4. split; [|split; [exact B|rewrite !app_assoc; auto]].
      left. exists (c0, e0), w1. split; [exact H1|]. left. exists u, w2. split; [exact H2|]. left. exists (c1, e1), w4. split; [exact A|]. split; reflexivity.
    + intros (c1 & e1 & c2 & e2 & w4 & H & B & -> & ->). apply bind_ok_inv in H as ([c0 e0] & w1 & H1 & H). apply bind_ok_inv in H as (u & w2 & H2 & H).
      apply bind_ok_inv in H as ([c e] & w3 & H3 & [E ->]). injection E as -> ->. left. exists (c0, e0), w1. split; [exact H1|]. left. exists u, w2. split; [exact H2|]. left.
      exists (c ++ c2, e ++ e2), w'. split; [apply IH; exists c, e, c2, e2, w3; auto|]. rewrite !app_assoc. split; reflexivity.
Qed.

Hypothesis Hlib : lib_ok lib.

(** What became of the stream [x] among others. *)
Lemma process_without {k n n'} d l1 x l2 w cbs errs w' : process entry_of lib k n (l1 ++ x :: l2) false d w (Ok (cbs, errs)) w' ->
  works (w_ui w) -> s_input x <> IStdin -> s_output x <> Ok OStdout ->
  (exists q b g, s_output x = Ok (OFile q) /\ In g (moments w') /\ reads entry_of g (s_input x) b /\ has_conversion entry_of lib d b g q) \/
  (exists q t, s_output x = Ok (OFile q) /\ entry_of q = Some t /\ In t (w_refused w')) \/
  (errs <> [] /\ exists errs' v', process entry_of lib k n' (l1 ++ l2) false d w (Ok (cbs, errs')) v' /\ alike w' v').
Proof.
  intros H R Nx No. apply process_app in H as (c1 & e1 & c2 & e2 & w1 & H1 & H2 & -> & ->).
  pose proof (sim_works _ _ _ _ (sim_process d l1) H1 R) as R1. cbn [process] in H2.
  apply bind_ok_inv in H2 as ([c0 e0] & w2 & H2 & H). apply bind_ok_inv in H as (u & w3 & H3 & H). apply bind_ok_inv in H as ([c3 e3] & w4 & H4 & [E ->]).
  injection E as -> ->. pose proof (tame_step _ _ Nx _ _ _ H2 R1) as T2. pose proof (tame_println _ _ _ _ _ H3 (proj2 (proj2 (proj2 (proj2 (proj2 (proj2 T2))))))) as T3.
  destruct (step_spec entry_of lib Hlib _ _ _ _ _ H2) as (G & _ & K). pose proof (quiet_ui _ _ _ _ H3) as Q3.
  destruct (process_spec entry_of lib Hlib _ _ _ _ _ H4) as (G4 & _ & _ & _).
  destruct K as [K|[(K & Op & K1)|(e & K & K1)]]; [discriminate K| |].
  - left. destruct K1 as [[_ K1]|(q & t & b & Eo & Et & _ & Rb & Hb)]; [contradiction|]. exists q, b, (w_fs w2). split; [exact Eo|]. split.
    + apply (g_past _ _ G4). rewrite (moments_same _ _ Q3). left. reflexivity.
    + split; [|exact Hb]. eapply reads_extends; [exact Rb|exact (g_now _ _ G)].
  - injection K as -> ->. destruct K1 as [K1|(q & t & Eo & Et & _ & I)].
    + right. right. split; [destruct e1; discriminate|].
      assert (Al : alike w3 w1).
      { split; [rewrite (proj1 Q3); exact K1|]. apply ui_alike_sym. eapply ui_alike_trans; eassumption. }
      destruct (sims_process (k' := k) (n' := n') d l1 _ _ _ _ H1 (alike_refl _ R)) as (v1 & Hv1 & Kv1).
      destruct (sims_process (k' := k + length l1) (n' := n') d l2 _ _ _ _ H4 (alike_trans _ _ _ Al Kv1)) as (v' & Hv & Kv). exists (e1 ++ e3), v'. split; [|exact Kv].
      apply process_app. exists c1, e1, c3, e3, v1. auto.
    + right. left. exists q, t. split; [exact Eo|]. split; [exact Et|]. apply (g_refused _ _ G4). destruct Q3 as (_ & _ & ->). exact I.
Qed.
(** ** The whole run *)

Definition keeps {A} (m : io A) : Prop := forall w r w', m w r w' -> (forall g, In g (moments w) -> In g (moments w')) /\ (forall t, In t (w_refused w) -> In t (w_refused w')).
Lemma keeps_quiet {A} (m : io A) : quiet m -> keeps m.
Proof. intros Q w r w' H. pose proof (Q _ _ _ H) as K. rewrite (moments_same _ _ K). destruct K as (_ & _ & ->). auto. Qed.
Lemma keeps_bind {A B} (m : io A) (f : A -> io B) : keeps m -> (forall a, keeps (f a)) -> keeps (io_bind m f).
Proof.
  intros M F w r w' [(a & w1 & H1 & H2)|[(e & H & _)|(H & _)]]; [|eapply M, H..]. destruct (M _ _ _ H1) as [A1 B1]. destruct (F _ _ _ _ H2) as [A2 B2]. auto.
Qed.
Lemma keeps_try {A} (m : io A) : keeps m -> keeps (io_try m).
Proof. intros M w r w' [(x & _ & H & _)|(H & _)]; eapply M, H. Qed.
Lemma keeps_remove_cb p force : keeps (remove_cb entry_of p force).
Proof.
  apply keeps_bind.
  - apply keeps_try. intros w r w' H. unfold remove_file in H. destruct (entry_of p) as [s|]; [|destruct H as [_ ->]; auto].
    destruct (f_entries (w_fs w) s) as [[]|]; [destruct H as [(_ & _ & ->)|[_ ->]]..|destruct H as [_ ->]|destruct H as [_ ->]]; cbn; auto.
  - intros [[]|e|]; [apply keeps_quiet, quiet_ret| |apply keeps_quiet, quiet_ret]. destruct force; apply keeps_quiet; [apply quiet_ret|apply quiet_ui].
Qed.
Definition cleanup (policy : cleanup_policy) (force : bool) (cbs : list path) : io unit :=
  match cbs with
  | [] => io_ret tt
  | _ =>
      let! should_delete :=
        match policy with
        | KeepFiles => io_ret false
        | DeleteFiles => io_ret true
        | PromptUser =>
            let! answer := io_ui (read_prompt_bool 0 question false) in
            io_ret (match answer with Some b => b | None => false end)
        end in
      if should_delete : bool then remove_all entry_of cbs force else io_ret tt
  end.
Lemma crypt_cleanup streams policy force d : crypt_streams entry_of lib streams policy force d =
  let! (cbs, errors) := process entry_of lib 0 (length streams) streams force d in
  let! _ := cleanup policy force cbs in
  io_lift (match errors with [] => Ok tt | _ => Err CComposite end).
Proof. reflexivity. Qed.
Lemma keeps_cleanup policy force cbs : keeps (cleanup policy force cbs).
Proof.
  destruct cbs as [|p cbs]; [apply keeps_quiet, quiet_ret|]. unfold cleanup. set (l := p :: cbs). clearbody l. apply keeps_bind.
  - destruct policy; apply keeps_quiet; [apply quiet_ret..|]. apply quiet_bind; [apply quiet_ui|intros; apply quiet_ret].
  - intros [|]; [|apply keeps_quiet, quiet_ret]. induction l as [|q l IH]; [apply keeps_quiet, quiet_ret|]. cbn [remove_all]. apply keeps_bind; [apply keeps_remove_cb|]. intros _. exact IH.
Qed.
Lemma sim_cleanup policy force cbs : sim (cleanup policy force cbs).
Proof.
  destruct cbs as [|p cbs]; [apply sim_ret|]. unfold cleanup. apply sim_bind.
  - destruct policy; [apply sim_ret..|]. apply sim_bind; [apply sim_ui, act_prompt|]. intros; apply sim_ret.
  - intros [|]; [apply sim_remove_all|apply sim_ret].
Qed.

Lemma crypt_without d policy l1 x l2 w r w' : crypt_streams entry_of lib (l1 ++ x :: l2) policy false d w r w' ->
  works (w_ui w) -> r <> Panic -> s_input x <> IStdin -> s_output x <> Ok OStdout ->
  (exists q b g, s_output x = Ok (OFile q) /\ In g (moments w') /\ reads entry_of g (s_input x) b /\ has_conversion entry_of lib d b g q) \/
  (exists q t, s_output x = Ok (OFile q) /\ entry_of q = Some t /\ In t (w_refused w')) \/
  (r <> Ok tt /\ exists r' v', crypt_streams entry_of lib (l1 ++ l2) policy false d w r' v' /\ fs_eq (w_fs v') (w_fs w') /\ (r' = r \/ r' = Ok tt)).
Proof.
  rewrite !crypt_cleanup. intros H R Np Nx No.
  destruct H as [([cbs errs] & w1 & H1 & H)|[(e & H1 & _)|(_ & ->)]]; [|destruct (process_works _ _ _ _ _ R H1)|contradiction Np; reflexivity].
  assert (Kp : (forall g, In g (moments w1) -> In g (moments w')) /\ (forall t, In t (w_refused w1) -> In t (w_refused w'))).
  { eapply keeps_bind in H; [exact H|apply keeps_cleanup|]. intros _. apply keeps_quiet, quiet_lift. }
  destruct Kp as [Km Kr]. destruct (process_without (n' := length (l1 ++ l2)) _ _ _ _ _ _ _ _ H1 R Nx No) as [(q & b & g & A & B & C)|[(q & t & A & B & C)|(Ne & errs' & v1 & Hv & Al)]].
  - left. exists q, b, g. auto.
  - right. left. exists q, t. auto.
  - right. right. destruct H as [(u & w2 & H2 & [-> ->])|[(e & H2 & ->)|(H2 & ->)]]; [| |contradiction Np; reflexivity].
    + split; [destruct errs; [contradiction Ne; reflexivity|discriminate]|].
      destruct (sim_cleanup _ _ _ _ _ _ _ H2 Al) as (v2 & Hv2 & Al2). exists (match errs' with [] => Ok tt | _ => Err CComposite end), v2. split.
      * left. exists (cbs, errs'), v1. split; [exact Hv|]. left. exists u, v2. split; [exact Hv2|]. split; reflexivity.
      * split; [apply Al2|]. destruct errs; [contradiction Ne; reflexivity|]. destruct errs'; auto.
    + split; [discriminate|]. destruct (sim_cleanup _ _ _ _ _ _ _ H2 Al) as (v2 & Hv2 & Al2). exists (Err e), v2. split.
      * left. exists (cbs, errs'), v1. split; [exact Hv|]. right. left. eauto.
      * split; [apply Al2|auto].
Qed.

(** With a terminal that works, the only errors are that some file failed and that the question could not be asked. *)
Lemma crypt_errors d policy streams w e w' : crypt_streams entry_of lib streams policy false d w (Err e) w' -> works (w_ui w) ->
  e = CComposite \/ (policy = PromptUser /\ tty_error e).
Proof.
  intros H R. destruct (crypt_inv _ _ _ _ _ _ _ _ _ H) as (rp & w1 & Hp & K). destruct K as [(e' & -> & _ & _)|[(_ & E & _)|(cbs & errs & -> & K)]].
  - destruct (process_works _ _ _ _ _ R Hp).
  - discriminate E.
  - destruct K as [(_ & [K|(Ep & e' & T & K)])|(w2 & _ & _ & _ & K)]; [destruct errs; [discriminate K|left; congruence]| |destruct errs; [discriminate K|left; congruence]].
    right. injection K as ->. auto.
Qed.
End Env.

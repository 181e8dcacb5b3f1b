(** Proofs that runs which differ only in what they print have the same effect. *)
From Coq.Strings Require Import Byte String.
From Coq Require Import List NArith ZArith Bool PeanoNat Lia.
From Verif Require Import Base BaseFacts Shamir Errors Io HeaderIoSpec StreamSpec Text Util CliErrors Getopts Crypto HeaderCrypto CredSpec FileCrypto KeyFiles Progress Ui CliCreds Paths Cli Fs Commands OptSpec OptProofs QuietSpec LoudSpec LoudProofs.
Import ListNotations.
Local Open Scope N_scope.

Section Hear.
(** Whether the input and the output are terminals. *)
Variables ti to : bool.

(** Two terminals with the same input, which always work; what is to be printed may differ, but errors are. *)
Definition hear (u v : ui) : Prop :=
  u_input u = u_input v /\ (u_input_is_tty u = ti /\ u_input_is_tty v = ti) /\ (u_output_is_tty u = to /\ u_output_is_tty v = to) /\
  (u_room u = None /\ u_room v = None) /\ ((-1 <= u_verbosity u)%Z /\ (-1 <= u_verbosity v)%Z).
Definition act_hear {A} (m n : act A) : Prop := forall u v, hear u v -> fst (m u) = fst (n v) /\ hear (snd (m u)) (snd (n v)).

Lemma hear_log u v e e' : hear u v -> hear (log u e) (log v e').
Proof. exact (fun H => H). Qed.
Lemma hear_log_l u v e : hear u v -> hear (log u e) v.
Proof. exact (fun H => H). Qed.
Lemma hear_log_r u v e : hear u v -> hear u (log v e).
Proof. exact (fun H => H). Qed.
Lemma hear_print m n (b c : ui -> bool) : act_hear (fun u => if b u then emit m u else (Ok tt, u)) (fun u => if c u then emit n u else (Ok tt, u)).
Proof.
  intros u v H. pose proof H as (_ & _ & _ & (A & B) & _). unfold emit. rewrite A, B.
  destruct (b u), (c v); split; try reflexivity; try exact H.
Qed.
Lemma hear_emit m : act_hear (emit m) (emit m).
Proof. exact (hear_print m m (fun _ => true) (fun _ => true)). Qed.
Lemma hear_can u v : hear u v -> can_read u = can_read v.
Proof.
  intros (A & (B & B') & (C & C') & _ & (D & D')). unfold can_read, will_print, INTERACTIVE_VERBOSITY. rewrite A, B, B', C, C'.
  apply Z.leb_le in D, D'. rewrite D, D'. reflexivity.
Qed.
Lemma hear_println n k t t' : act_hear (ui_println n t) (ui_println k t').
Proof. exact (hear_print _ _ (fun u => will_print u n) (fun u => will_print u k)). Qed.
Lemma hear_print_error e : act_hear (print_error e) (print_error e).
Proof. exact (hear_print _ _ (fun u => will_print u _) (fun u => will_print u _)). Qed.
Lemma hear_interactive t : act_hear (println_interactive t) (println_interactive t).
Proof. exact (hear_print _ _ (fun u => will_print u _) (fun u => will_print u _)). Qed.
Lemma hear_progress n : act_hear (println_progress n) (println_progress n).
Proof.
  intros u v H. pose proof H as (_ & _ & _ & (A & B) & _). unfold println_progress, emit. rewrite A, B.
  destruct (u_progress_enabled u), (u_progress_enabled v), (will_print u n), (will_print v n); split; try reflexivity; exact H.
Qed.
Lemma hear_ignore {A} (m n : act A) : act_hear m n -> act_hear (ignore m) (ignore n).
Proof.
  intros M u v H. destruct (M u v H) as [E K]. unfold ignore.
  destruct (m u) as [[a| |] u1], (n v) as [[b| |] v1]; cbn [fst snd] in *; try discriminate E; split; try reflexivity; exact K.
Qed.
Lemma hear_bind {A B} (m n : act A) (f g : A -> act B) : act_hear m n -> (forall a, act_hear (f a) (g a)) -> act_hear (bind_act m f) (bind_act n g).
Proof.
  intros M F u v H. destruct (M u v H) as [E K]. unfold bind_act. destruct (m u) as [[a| |] u1], (n v) as [[b| |] v1]; cbn [fst snd] in *; try discriminate E.
  - injection E as ->. apply F, K.
  - injection E as ->. split; [reflexivity|exact K].
  - split; [reflexivity|exact K].
Qed.
Lemma hear_ret {A} (a : A) : act_hear (ret a) (ret a).
Proof. intros u v H. split; [reflexivity|exact H]. Qed.
Lemma hear_lift {A} (x : outcome cerr A) : act_hear (lift x) (lift x).
Proof. intros u v H. split; [reflexivity|exact H]. Qed.
Lemma hear_ensure c e : act_hear (ensure_act c e) (ensure_act c e).
Proof. apply hear_lift. Qed.
Lemma hear_echo b : act_hear (set_stdin_echo b) (set_stdin_echo b).
Proof. intros u v H. split; [reflexivity|exact H]. Qed.
Lemma hear_size u v : hear u v -> input_size u = input_size v.
Proof. intros (A & _). unfold input_size. rewrite A. reflexivity. Qed.
Lemma hear_read_prompt p : act_hear (read_prompt p) (read_prompt p).
Proof.
  intros u v H. unfold read_prompt. rewrite (hear_can _ _ H). destruct (negb (can_read v)); [split; [reflexivity|exact H]|].
  revert u v H. apply hear_bind; [apply hear_emit|]. intros _ u v H. pose proof H as (A & _). rewrite A.
  destruct (u_input v) as [s|] eqn:Ev; [|split; [reflexivity|exact H]].
  destruct (read_chars (S (source_size s)) s [] []) as [rr s']. split; [reflexivity|].
  destruct H as (_ & B & C & D & E). destruct rr; unfold hear; cbn; auto 10.
Qed.
(** With nobody to ask, the question is not asked. *)
Lemma hear_no_question n p b : ti = false \/ to = false -> act_hear (read_prompt_bool n p b) (read_prompt_bool n p b).
Proof.
  intros Q u v H. unfold read_prompt_bool. assert (can_read v = false) as E.
  { unfold can_read. destruct H as (_ & (_ & B) & (_ & C) & _). rewrite B, C. destruct Q as [->| ->]; destruct (u_input v); cbn; try reflexivity; destruct ti; reflexivity. }
  rewrite (hear_can _ _ H), E. split; [reflexivity|exact H].
Qed.
Lemma hear_read_password p : act_hear (read_password p) (read_password p).
Proof.
  intros u v H. unfold read_password. rewrite (hear_can _ _ H). destruct (negb (can_read v)); [split; [reflexivity|exact H]|].
  revert u v H. apply hear_bind; [apply hear_echo|]. intros _ u v H. destruct (hear_read_prompt p u v H) as [E K].
  destruct (read_prompt p u) as [r u1], (read_prompt p v) as [r' v1]. cbn [fst snd] in *. subst r'. revert K. generalize u1 v1. intros a b.
  apply hear_bind; [apply hear_echo|]. intros _. apply hear_bind; [apply hear_interactive|]. intros _. apply hear_lift.
Qed.
Lemma hear_password_loop d msg fuel : act_hear (password_loop fuel d msg) (password_loop fuel d msg).
Proof.
  induction fuel as [|fuel IH]; [apply hear_lift|]. cbn [password_loop]. apply hear_bind; [apply hear_read_password|]. intros p.
  destruct (text_eqb p []); [apply hear_bind; [apply hear_interactive|]; intros _; exact IH|].
  apply hear_bind; [destruct (is_encrypt d); [apply hear_bind; [apply hear_read_password|]; intros; apply hear_ret|apply hear_ret]|].
  intros [|]; (apply hear_bind; [apply hear_interactive|]; intros _); [apply hear_ret|exact IH].
Qed.
Lemma hear_interactive_password d n : act_hear (read_password_interactively d n) (read_password_interactively d n).
Proof.
  intros u v H. unfold read_password_interactively. rewrite (hear_can _ _ H). destruct (negb (can_read v)); [split; [reflexivity|exact H]|].
  cbv zeta. rewrite (hear_size _ _ H). apply hear_password_loop, H.
Qed.
Lemma hear_progress_lines k : forall u v, hear u v -> hear (progress_lines k u) (progress_lines k v).
Proof. induction k as [|k IH]; intros u v H; [exact H|]. cbn [progress_lines]. apply IH. apply hear_progress, H. Qed.

(** ** The command line *)

Section Line.
Variable sha512 : bytes -> bytes.
Variable files : text -> option bytes.

Lemma hear_read_token d sk t : act_hear (read_token sha512 files d sk t) (read_token sha512 files d sk t).
Proof.
  destruct t; cbn [read_token]; try apply hear_lift.
  - apply hear_bind; [apply hear_interactive_password|]. intros. apply hear_ret.
  - apply hear_bind; [apply hear_interactive_password|]. intros. apply hear_ret.
  - apply hear_bind; [apply hear_ensure|]. intros. apply hear_lift.
  - apply hear_bind; [apply hear_ensure|]. intros. apply hear_bind; [apply hear_lift|]. intros. apply hear_ret.
  - apply hear_bind; [apply hear_ensure|]. intros. apply hear_lift.
Qed.
Lemma hear_add st cs : act_hear (add_creds st cs) (add_creds st cs).
Proof. apply hear_bind; [apply hear_ensure|]. intros. apply hear_ret. Qed.
Lemma hear_parse_loop d sk fuel : forall level st tokens,
  act_hear (parse_loop sha512 files fuel d sk level st tokens) (parse_loop sha512 files fuel d sk level st tokens).
Proof.
  induction fuel as [|fuel IH]; intros level st tokens; [apply hear_lift|]. cbn [parse_loop].
  destruct tokens as [|t tokens]; [apply hear_bind; [apply hear_lift|]; intros; apply hear_ret|].
  apply hear_bind; [apply hear_ensure|]. intros _. apply hear_bind; [apply hear_ensure|]. intros _.
  assert (G : act_hear (let+ creds := read_token sha512 files d sk t in let+ st := add_creds st creds in parse_loop sha512 files fuel d sk level st tokens)
                       (let+ creds := read_token sha512 files d sk t in let+ st := add_creds st creds in parse_loop sha512 files fuel d sk level st tokens)).
  { apply hear_bind; [apply hear_read_token|]. intros cs. apply hear_bind; [apply hear_add|]. intros st'. apply IH. }
  destruct t; try exact G.
  - apply hear_bind; [apply hear_ensure|]. intros _. apply IH.
  - apply hear_bind; [apply hear_ensure|]. intros _. apply IH.
  - apply hear_bind; [apply hear_ensure|]. intros _. apply IH.
  - apply hear_bind; [apply IH|]. intros [c ts]. apply hear_bind; [apply hear_add|]. intros st'. apply IH.
  - apply hear_bind; [apply hear_lift|]. intros c. apply hear_ret.
Qed.
Lemma hear_complex d sk ts : act_hear (parse_complex_credential sha512 files d sk ts) (parse_complex_credential sha512 files d sk ts).
Proof. apply hear_bind; [apply hear_parse_loop|]. intros [c t]. apply hear_ret. Qed.

Lemma hear_adjust v1 v2 streams d force a b c : (-1 <= v1)%Z -> (-1 <= v2)%Z ->
  act_hear (check_and_adjust_ui_verbosity v1 streams d force a b c) (check_and_adjust_ui_verbosity v2 streams d force a b c).
Proof.
  intros L1 L2 u v H. unfold check_and_adjust_ui_verbosity. cbv zeta.
  destruct (_ && _ && negb force); [split; [reflexivity|exact H]|]. destruct (_ && _ && negb force); [split; [reflexivity|exact H]|].
  destruct H as (H1 & H2 & H3 & H4 & H5 & H6).
  destruct (v1 =? 0)%Z, (v2 =? 0)%Z; (split; [reflexivity|]); unfold hear; cbn [snd set_verbosity set_progress_enabled u_input u_input_is_tty u_output_is_tty u_room u_verbosity];
    repeat split; try tauto; repeat match goal with |- context [if ?x then _ else _] => destruct x end; lia.
Qed.

Lemma hear_line args1 args2 m1 m2 m0 f1 f2 a b c :
  rising f1 -> rising f2 -> m_free m1 = m_free m0 -> m_free m2 = m_free m0 ->
  soft (m_occs m1) = map (renum f1) (soft (m_occs m0)) -> soft (m_occs m2) = map (renum f2) (soft (m_occs m0)) ->
  parse_options args1 = Ok m1 -> parse_options args2 = Ok m2 ->
  (args1 = [] <-> args2 = []) \/ b = false ->
  (-1 <= Z.of_N (opt_count m1 OVerbose) - Z.of_N (opt_count m1 OQuiet) <= 2)%Z ->
  (-1 <= Z.of_N (opt_count m2 OVerbose) - Z.of_N (opt_count m2 OQuiet) <= 2)%Z ->
  act_hear (parse_command_line sha512 files args1 a b c) (parse_command_line sha512 files args2 a b c).
Proof.
  intros F F2 Hf Hf2 Hs Hs2 P1 P2 Em V1 V2. unfold parse_command_line. rewrite P1, P2.
  assert (R : forall (k1 k2 : opt_matches -> act command), act_hear (k1 m1) (k2 m2) -> act_hear (bind_act (lift (Ok m1)) k1) (bind_act (lift (Ok m2)) k2)).
  { intros k1 k2 K u v H. exact (K u v H). }
  apply R. clear R. cbv beta zeta.
  set (v1 := (Z.of_N (opt_count m1 OVerbose) - Z.of_N (opt_count m1 OQuiet))%Z) in *. clearbody v1.
  set (v2 := (Z.of_N (opt_count m2 OVerbose) - Z.of_N (opt_count m2 OQuiet))%Z) in *. clearbody v2.
  assert (ensure ((-2 <=? v1)%Z && (v1 <=? 2)%Z) CVerbosity = ensure ((-2 <=? v2)%Z && (v2 <=? 2)%Z) CVerbosity) as Er.
  { assert ((-2 <=? v1)%Z = true /\ (v1 <=? 2)%Z = true /\ (-2 <=? v2)%Z = true /\ (v2 <=? 2)%Z = true) as (-> & -> & -> & ->); [|reflexivity].
    repeat split; apply Z.leb_le; lia. }
  apply hear_bind; [unfold ensure_act; rewrite Er; apply hear_lift|]. intros _.
  apply hear_bind.
  { intros u v (H1 & H2 & H3 & H4 & H5). split; [reflexivity|]. unfold hear. cbn. repeat split; try tauto; lia. }
  intros _. rewrite (same_mode m1 m0 f1 F Hs), (same_mode m2 m0 f2 F2 Hs2), (same_present m1 m0 f1 Hs OForce eq_refl), (same_present m2 m0 f2 Hs2 OForce eq_refl).
  assert (match args1 with [] => true | _ => false end && b = match args2 with [] => true | _ => false end && b) as ->.
  { destruct Em as [Em| ->]; [|rewrite !andb_false_r; reflexivity]. destruct args1, args2; try reflexivity; destruct Em as [E1 E2]; exfalso; (discriminate (E1 eq_refl) || discriminate (E2 eq_refl)). }
  set (force := opt_present m0 OForce).
  destruct (if _ && b then MHelp else get_mode m0) as [d| | |]; [| |apply hear_ret|apply hear_ret].
  - rewrite (same_streams m1 m0 f1 Hf Hs), (same_streams m2 m0 f2 Hf2 Hs2). apply hear_bind; [apply hear_lift|]. intros streams.
    apply hear_bind; [apply hear_adjust; lia|]. intros _.
    rewrite (same_present m1 m0 f1 Hs OKeepInputs eq_refl), (same_present m2 m0 f2 Hs2 OKeepInputs eq_refl), (same_present m1 m0 f1 Hs ODiscardInputs eq_refl), (same_present m2 m0 f2 Hs2 ODiscardInputs eq_refl).
    apply hear_bind; [destruct (opt_present m0 OKeepInputs), (opt_present m0 ODiscardInputs); first [apply hear_lift|apply hear_ret]|].
    intros policy. apply hear_bind; [|intros; apply hear_ret].
    destruct d; rewrite ?(same_present m1 m0 f1 Hs OFast eq_refl), ?(same_present m2 m0 f2 Hs2 OFast eq_refl).
    + apply hear_bind; [|intros; apply hear_ret]. unfold get_encrypt_credential. rewrite (same_tokens m1 m0 f1 F Hs), (same_tokens m2 m0 f2 F2 Hs2).
      apply hear_bind; [apply hear_lift|]. intros ts. apply hear_complex.
    + apply hear_bind; [|intros; apply hear_ret]. unfold get_decrypt_credentials. rewrite (same_tokens m1 m0 f1 F Hs), (same_tokens m2 m0 f2 F2 Hs2).
      apply hear_bind; [apply hear_lift|]. intros ts. apply hear_bind; [apply hear_complex|]. intros [| | | |subs n t]; try apply hear_lift.
      apply hear_bind; [apply hear_lift|]. intros _. apply hear_bind; [apply hear_lift|]. intros _. apply hear_lift.
  - rewrite (same_keypair_streams m1 m0 Hf), (same_keypair_streams m2 m0 Hf2). apply hear_bind; [apply hear_lift|]. intros ks. apply hear_ret.
Qed.
End Line.

(** ** The commands *)

(** A computation does the same with another terminal. *)
Definition sim2 {A} (m n : io A) : Prop := forall w r w' u, m w r w' -> hear (w_ui w) u -> exists u', n (set_ui w u) r (set_ui w' u') /\ hear (w_ui w') u'.
Definition sim {A} (m : io A) : Prop := sim2 m m.

Lemma hs_same {A} (m : io A) : (forall w r w' u, m w r w' -> w_ui w' = w_ui w /\ m (set_ui w u) r (set_ui w' u)) -> sim m.
Proof. intros H w r w' u K Hu. destruct (H w r w' u K) as [E M]. exists u. split; [exact M|]. rewrite E. exact Hu. Qed.
Lemma hs_ret {A} (a : A) : sim (io_ret a).
Proof. apply hs_same. intros w r w' u [-> ->]. repeat split. Qed.
Lemma hs_lift {A} (x : outcome cerr A) : sim (io_lift x).
Proof. apply hs_same. intros w r w' u [-> ->]. repeat split. Qed.
Lemma hs_ui {A} (m n : act A) : act_hear m n -> sim2 (io_ui m) (io_ui n).
Proof. intros M w r w' u [-> ->] H. destruct (M _ _ H) as [E K]. exists (snd (n u)). split; [split; [exact E|reflexivity]|exact K]. Qed.
Lemma hs_bind {A B} (m n : io A) (f g : A -> io B) : sim2 m n -> (forall a, sim2 (f a) (g a)) -> sim2 (io_bind m f) (io_bind n g).
Proof.
  intros M F w r w' u [(a & w1 & H1 & H2)|[(e & H & ->)|(H & ->)]] K.
  - destruct (M _ _ _ _ H1 K) as (u1 & V1 & K1). destruct (F a _ _ _ _ H2 K1) as (u' & V & K'). exists u'. split; [left; eauto|exact K'].
  - destruct (M _ _ _ _ H K) as (u1 & V1 & K1). exists u1. split; [right; left; eauto|exact K1].
  - destruct (M _ _ _ _ H K) as (u1 & V1 & K1). exists u1. split; [right; right; eauto|exact K1].
Qed.
Lemma hs_try {A} (m : io A) : sim m -> sim (io_try m).
Proof.
  intros M w r w' u [(x & N & H & ->)|(H & ->)] K; destruct (M _ _ _ _ H K) as (u1 & V1 & K1); exists u1; (split; [|exact K1]); [left; eauto|right; eauto].
Qed.

Lemma write_ui wr d w u : write_out wr d (set_ui w u) = set_ui (write_out wr d w) u /\ w_ui (write_out wr d w) = w_ui w.
Proof.
  destruct wr as [i|]; [|split; reflexivity]. cbn [write_out]. change (w_fs (set_ui w u)) with (w_fs w).
  destruct (f_nodes (w_fs w) i) as [n|]; [|split; reflexivity]. destruct (n_regular n); [|split; reflexivity].
  generalize (seq 1 (length d)). intros l. revert w. induction l as [|k l IH]; intros w; [split; reflexivity|]. cbn [fold_left].
  destruct (IH (set_fs w (set_content (w_fs w) i (n_content n ++ firstn k d)))) as [A B]. split; [exact A|rewrite B; reflexivity].
Qed.

Section Env.
Variable entry_of : names.
Variable lib : crypto_lib.

Lemma hs_open_file p : sim (open_file entry_of p).
Proof.
  apply hs_bind; [apply hs_same; intros w r w' u [-> H]; split; [reflexivity|split; [reflexivity|exact H]]|]. intros rd.
  apply hs_bind; [apply hs_same; intros w r w' u [-> H]; split; [reflexivity|split; [reflexivity|exact H]]|]. intros md.
  apply hs_bind; [apply hs_lift|]. intros _. apply hs_ret.
Qed.
Lemma hs_open_input i force : sim (open_input entry_of i force).
Proof.
  destruct i as [p|p|]; cbn [open_input].
  - apply hs_bind; [apply hs_open_file|]. intros [rd md]. do 3 (apply hs_bind; [apply hs_lift|]; intros _). apply hs_ret.
  - apply hs_bind; [apply hs_open_file|]. intros [rd md]. apply hs_ret.
  - intros w r w' u H K. unfold open_stdin in *. change (w_ui (set_ui w u)) with u. destruct K as (A & K). rewrite A in H.
    destruct (u_input u) as [s|] eqn:E; destruct H as [-> ->].
    + exists (set_input u None). split; [split; reflexivity|]. unfold hear. cbn. tauto.
    + exists u. split; [split; reflexivity|]. unfold hear. rewrite A, E. tauto.
Qed.
Lemma hs_open_output o force : sim (open_output entry_of o force).
Proof.
  destruct o as [q|]; cbn [open_output]; [|apply hs_ret]. apply hs_same. intros w r w' u H. destruct force.
  - destruct H as [(-> & -> & Fa)|(s & t & i & Es & Et & -> & [(N & U & ->)|(n & En & Nn & ->)])].
    + split; [reflexivity|]. left. auto.
    + split; [reflexivity|]. right. exists s, t, i. split; [exact Es|]. split; [exact Et|]. split; [reflexivity|]. left. auto.
    + split; [destruct (n_regular n); reflexivity|]. right. exists s, t, i. split; [exact Es|]. split; [exact Et|]. split; [reflexivity|]. right. exists n.
      split; [exact En|]. split; [exact Nn|]. destruct (n_regular n); reflexivity.
  - destruct H as [(-> & -> & Fa)|(s & i & Es & E1 & U & -> & ->)]; (split; [reflexivity|]); [left; auto|right; exists s, i; auto 10].
Qed.
Lemma hs_convert d rd wr : sim (convert entry_of lib d rd wr).
Proof.
  intros w r w' u (er & src & room & fl & r0 & snk & k & Hr & Hk & Hp & Hc & H) K.
  assert (X : forall out, hear (w_ui (set_ui (write_out wr out w) (progress_lines k (w_ui (write_out wr out w))))) (progress_lines k u)).
  { intros out. cbn [set_ui w_ui]. rewrite (proj2 (write_ui wr out w u)). apply hear_progress_lines, K. }
  assert (Y : forall out, set_ui (set_ui (write_out wr out w) (progress_lines k (w_ui (write_out wr out w)))) (progress_lines k u) =
                          set_ui (write_out wr out (set_ui w u)) (progress_lines k (w_ui (write_out wr out (set_ui w u))))).
  { intros out. rewrite (proj1 (write_ui wr out w u)). reflexivity. }
  destruct H as [(-> & ->)|(-> & Pp & out & Po & ->)].
  - exists (progress_lines k u). split; [|apply X]. cbv zeta. rewrite Y. exists er, src, room, fl, r0, snk, k. auto 10.
  - exists (progress_lines k u). split; [|apply X]. cbv zeta. rewrite Y. exists er, src, room, fl, r0, snk, k.
    split; [exact Hr|]. split; [exact Hk|]. split; [exact Hp|]. split; [exact Hc|]. right. split; [reflexivity|]. split; [exact Pp|]. exists out. auto.
Qed.
Lemma hs_remove_cb p force : sim (remove_cb entry_of p force).
Proof.
  apply hs_bind.
  - apply hs_try, hs_same. intros w r w' u H. unfold remove_file in *. change (w_fs (set_ui w u)) with (w_fs w).
    destruct (entry_of p) as [s|]; [|destruct H as [-> ->]; auto].
    destruct (f_entries (w_fs w) s) as [[i|t|]|]; try (destruct H as [-> ->]; auto; fail);
      (destruct H as [(Fa & -> & ->)|[-> ->]]; split; [reflexivity|left; auto|reflexivity|right; auto]).
  - intros [[]|e|]; [apply hs_ret| |apply hs_ret]. destruct force; [apply hs_ret|]. apply hs_ui, hear_ignore, hear_print_error.
Qed.
Lemma hs_step {k n} st force d : sim (step entry_of lib k n st force d).
Proof.
  apply hs_bind.
  - apply hs_bind.
    + apply hs_try. apply hs_bind; [apply hs_ui, hear_ignore, hear_println|]. intros _. apply hs_bind; [apply hs_lift|]. intros o.
      apply hs_bind; [apply hs_open_input|]. intros rd. apply hs_bind; [apply hs_open_output|]. intros wr. apply hs_ret.
    + intros [[[rd wr] cb]|e|]; [|apply hs_ret|apply hs_lift]. apply hs_bind; [apply hs_try, hs_convert|]. intros r. apply hs_ret.
  - intros [[[]|e|] cb]; [apply hs_ret| |apply hs_lift]. apply hs_bind; [apply hs_ui, hear_ignore, hear_print_error|]. intros _.
    apply hs_bind; [destruct cb; [apply hs_remove_cb|apply hs_ret]|]. intros _. apply hs_ret.
Qed.
Lemma hs_process {k n} force d l : sim (process entry_of lib k n l force d).
Proof.
  revert k. induction l as [|st l IH]; intros k; [apply hs_ret|]. cbn [process]. apply hs_bind; [apply hs_step|]. intros [c e].
  apply hs_bind; [apply hs_ui, hear_println|]. intros _. apply hs_bind; [apply IH|]. intros [c' e']. apply hs_ret.
Qed.
Lemma hs_remove_all l force : sim (remove_all entry_of l force).
Proof. induction l as [|p l IH]; [apply hs_ret|]. cbn [remove_all]. apply hs_bind; [apply hs_remove_cb|]. intros _. exact IH. Qed.
Lemma hs_crypt streams policy force d : policy <> PromptUser \/ ti = false \/ to = false -> sim (crypt_streams entry_of lib streams policy force d).
Proof.
  intros Q. apply hs_bind; [apply hs_process|]. intros [cbs errors]. apply hs_bind; [|intros _; apply hs_lift].
  destruct cbs as [|c cbs]; [apply hs_ret|]. apply hs_bind.
  - destruct policy; [apply hs_ret|apply hs_ret|]. apply hs_bind; [|intros; apply hs_ret]. apply hs_ui, hear_no_question.
    destruct Q as [Q|Q]; [congruence|exact Q].
  - intros [|]; [apply hs_remove_all|apply hs_ret].
Qed.

Variable sha512 : bytes -> bytes.

Lemma hs_write_text wr t : sim (write_text entry_of wr t).
Proof.
  apply hs_same. intros w r w' u [[-> ->]|(Fa & -> & out & P & ->)].
  - split; [apply (write_ui wr _ w u)|]. left. split; [reflexivity|]. symmetry. apply write_ui.
  - split; [apply (write_ui wr _ w u)|]. right. split; [exact Fa|]. split; [reflexivity|]. exists out. split; [exact P|]. symmetry. apply write_ui.
Qed.
Lemma hs_write_pair ks force a b : sim (write_pair entry_of ks force a b).
Proof.
  apply hs_bind.
  - destruct (k_public ks); [|apply hs_ret]. apply hs_bind; [apply hs_ui, hear_println|]. intros _. apply hs_bind; [apply hs_open_output|]. intros wr. apply hs_write_text.
  - intros _. apply hs_bind; [apply hs_ui, hear_println|]. intros _. apply hs_bind; [apply hs_open_output|]. intros wr. apply hs_write_text.
Qed.
Lemma hs_generate_all {k n} cs streams force : sim (generate_all entry_of sha512 k n cs streams force).
Proof.
  revert k. induction streams as [|ks streams IH]; intros k; [apply hs_ret|]. cbn [generate_all].
  apply hs_bind; [apply hs_same; intros w r w' u [-> H]; split; [reflexivity|split; [reflexivity|exact H]]|]. intros [pk sk].
  apply hs_bind; [apply hs_lift|]. intros [pt st]. apply hs_bind; [apply hs_ui, hear_println|]. intros _. apply hs_bind; [apply hs_ui, hear_println|]. intros _.
  apply hs_bind; [apply hs_try, hs_write_pair|]. intros res.
  apply hs_bind; [destruct res as [[]|e|]; [apply hs_ret| |apply hs_lift]; apply hs_bind; [apply hs_ui, hear_print_error|]; intros _; apply hs_ret|]. intros errors.
  apply hs_bind; [apply hs_ui, hear_println|]. intros _. apply hs_bind; [apply IH|]. intros e'. apply hs_ret.
Qed.
Lemma hs_generate streams force : sim (generate_key_pair_files entry_of lib sha512 streams force).
Proof.
  apply hs_bind; [apply hs_lift|]. intros cs. apply hs_bind; [apply hs_generate_all|]. intros e. apply hs_lift.
Qed.
Lemma hs_print_text : sim (print_text entry_of).
Proof. apply hs_same. intros w r w' u (out & -> & H). split; [reflexivity|]. exists out. split; [reflexivity|exact H]. Qed.
Lemma hs_run c : (forall s p f d, c = CryptStreams s p f d -> p <> PromptUser \/ ti = false \/ to = false) -> sim (run_command entry_of lib sha512 c).
Proof.
  intros Q. destruct c as [s p f d|ks f| |]; cbn [run_command]; [apply hs_crypt, (Q _ _ _ _ eq_refl)|apply hs_generate|apply hs_print_text|apply hs_print_text].
Qed.
End Env.
End Hear.

(** The calls of key generation, of the whole program (C66), and their relation to Commands. *)
From Coq.Strings Require Import Byte String.
From Coq Require Import List NArith ZArith Bool PeanoNat Lia.
From Verif Require Import Base BaseFacts Shamir Errors Io HeaderIoSpec StreamSpec Text Util CliErrors Crypto HeaderCrypto FileCrypto CredSpec KeyFiles Ui UiSpec Paths Getopts CliCreds Cli Fs Commands FsSpec ConvProofs FsProofs FsProofs3 FsProofs4 Program Calls CallSpec CallProofs CallProofs2.
Import ListNotations.
Local Open Scope N_scope.

(** ** Key pairs *)
Lemma silent_app h h' : silent (h ++ h') = silent h ++ silent h'.
Proof. apply filter_app. Qed.
Section Keys.
Variable lib : crypto_lib.
Variable sha512 : bytes -> bytes.
Variables (all : list key_streams) (force : bool).
Definition justified_key (b : list syscall) (e : syscall) : Prop :=
  match e with
  | SKeypair _ | SUi _ => True
  | SCreateNew q _ => force = false /\ exists ks, In ks all /\ In q (key_files ks)
  | SCreateOrTruncate q _ => force = true /\ exists ks, In ks all /\ In q (key_files ks)
  | SWriteText wr t out x => prefix_of out (utf8 t) /\ (x = Ok tt -> out = utf8 t) /\ (for_public sha512 all force wr t b \/ for_private sha512 all force wr t b)
  | _ => False
  end.
Local Notation ho := (hoare justified_key).
Implicit Type P : list syscall -> Prop.

(** Only the calls matter, not the terminal. *)
Lemma k_ui {A} (P : list syscall -> Prop) (m : act A) : ho (fun h => P (silent h)) (t_ui m) (fun _ h => P (silent h)).
Proof. apply h_ui; [intros; exact I|]. intros pre u Hp. rewrite silent_app, app_nil_r. exact Hp. Qed.
Lemma k_output (P : list syscall -> Prop) o : (forall q, o = OFile q -> exists ks, In ks all /\ In q (key_files ks)) ->
  ho (fun h => P (silent h)) (open_output_p trace (any_os lib) o force) (fun r h => forall wr, r = Ok wr -> exists h0 h1, P h0 /\ creates force o wr h1 /\ silent h = h0 ++ h1).
Proof.
  intros Ho. unfold open_output_p. destruct o as [q|].
  - cbn [any_os p_create_or_truncate p_create_new]. assert (F : force = true \/ force = false) by (destruct force; auto).
    destruct F as [F|F]; [replace (if force then t_call (SCreateOrTruncate q) else t_call (SCreateNew q)) with (t_call (SCreateOrTruncate q)) by (rewrite F; reflexivity)
                         |replace (if force then t_call (SCreateOrTruncate q) else t_call (SCreateNew q)) with (t_call (SCreateNew q)) by (rewrite F; reflexivity)];
      apply h_call.
    + intros pre x _. split; [exact F|]. apply Ho. reflexivity.
    + intros pre x Hp _ wr ->. exists (silent pre), [SCreateOrTruncate q (Ok wr)]. split; [exact Hp|]. split; [apply cr_truncated, F|]. rewrite silent_app. reflexivity.
    + intros pre x _. split; [exact F|]. apply Ho. reflexivity.
    + intros pre x Hp _ wr ->. exists (silent pre), [SCreateNew q (Ok wr)]. split; [exact Hp|]. split; [apply cr_new, F|]. rewrite silent_app. reflexivity.
  - apply h_ret. intros pre Hp wr [= <-]. exists (silent pre), []. split; [exact Hp|]. split; [apply cr_stdout|]. rewrite app_nil_r. reflexivity.
Qed.
Lemma k_write P wr t (Q : outcome cerr unit -> list syscall -> Prop) : (forall h, P h -> for_public sha512 all force wr t h \/ for_private sha512 all force wr t h) ->
  (forall h out x, P h -> (x = Ok tt -> out = utf8 t) -> Q x (h ++ [SWriteText wr t out x])) -> ho P (t_write_text wr t) Q.
Proof.
  intros Hj Hq pre u r h u' Hp (-> & out & x & Pr & Np & Ox & -> & D). split.
  - intros b e a E. apply split_one in E as (-> & -> & _). rewrite app_nil_r. split; [exact Pr|]. split; [exact Ox|]. apply Hj, Hp.
  - intros y Ey. destruct D as [D|D]; rewrite D in Ey; [|discriminate Ey]. injection Ey as <-. apply Hq; assumption.
Qed.

Lemma ho_write_pair ks pk sk pt t : In ks all -> key_pair_texts sha512 pk sk = Ok (pt, t) ->
  ho (fun h => exists h0, silent h = h0 ++ [SKeypair (pk, sk)]) (write_pair_p trace (any_os lib) ks force pt t) (fun _ _ => True).
Proof.
  intros Hk Et. unfold write_pair_p. cbn [any_os p_bind p_ui p_write_text p_ret].
  eapply h_bind with (R := fun r h => r = Ok tt -> exists h0 h1, public_part sha512 force ks pt t h1 /\ silent h = h0 ++ h1); [| |auto|auto].
  - destruct (k_public ks) as [p|] eqn:Ep.
    + eapply h_bind; [apply (k_ui (fun l => exists h0, l = h0 ++ [SKeypair (pk, sk)]))| |discriminate|discriminate]. intros a0. cbv beta. clear a0.
      eapply h_bind; [apply (k_output (fun l => exists h0, l = h0 ++ [SKeypair (pk, sk)]))| |discriminate|discriminate].
      * intros q [= <-]. exists ks. split; [exact Hk|]. unfold key_files. rewrite Ep. left. reflexivity.
      * intros wr. apply k_write.
        -- intros h K. destruct (K _ eq_refl) as (h0 & h1 & (h0' & ->) & C & E). left. exists ks, p, pk, sk, t, h0', h1. rewrite <- app_assoc in E. auto 10.
        -- intros h out x K Ox E1. subst x. destruct (K _ eq_refl) as (h0 & h1 & (h0' & ->) & C & E). rewrite (Ox eq_refl).
           exists h0', (SKeypair (pk, sk) :: h1 ++ [SWriteText wr pt (utf8 pt) (Ok tt)]). split; [eapply pub_file; eassumption|]. rewrite silent_app, E, <- !app_assoc. reflexivity.
    + apply h_ret. intros h (h0 & E) _. exists h0, [SKeypair (pk, sk)]. split; [eapply pub_none; eassumption|exact E].
  - intros []. eapply h_pre with (P' := fun h => (fun l => exists h0 h1, public_part sha512 force ks pt t h1 /\ l = h0 ++ h1) (silent h)); [|auto].
    eapply h_bind; [apply (k_ui (fun l => exists h0 h1, public_part sha512 force ks pt t h1 /\ l = h0 ++ h1))| |auto|auto]. intros a0. cbv beta. clear a0.
    eapply h_bind; [apply (k_output (fun l => exists h0 h1, public_part sha512 force ks pt t h1 /\ l = h0 ++ h1))| |auto|auto].
    + intros q Eq. exists ks. split; [exact Hk|]. unfold key_files. rewrite Eq. apply in_or_app. right. left. reflexivity.
    + intros wr. apply k_write; [|auto]. intros h K. destruct (K _ eq_refl) as (h0 & h1 & (h0' & h2 & Pp & ->) & C & E). right. exists ks, pt, h0', h2, h1. rewrite <- app_assoc in E. auto.
Qed.
Lemma ho_generate_all {k n} cs l : incl l all -> ho (fun _ => True) (generate_all_p trace (any_os lib) sha512 k n cs l force) (fun _ _ => True).
Proof.
  revert k. induction l as [|ks l IH]; intros k Hi; cbn [generate_all_p]; cbn [any_os p_bind p_ui p_write_text p_ret p_lift p_try p_keypair] in *; [apply h_ret; auto|].
  eapply h_bind with (R := fun r h => forall pk sk, r = Ok (pk, sk) -> exists h0, silent h = h0 ++ [SKeypair (pk, sk)]); [| |auto|auto].
  - intros pre u r h u' _ (-> & seed & -> & D). split; [intros b e a E; apply split_one in E as (-> & -> & _); exact I|].
    intros x Ex pk sk ->. destruct D as [D|D]; rewrite D in Ex; [|discriminate Ex]. injection Ex as Ex. exists (silent pre). rewrite silent_app, Ex. reflexivity.
  - intros [pk sk]. eapply h_pre with (P' := fun h => exists h0, silent h = h0 ++ [SKeypair (pk, sk)]); [|intros h K; exact (K _ _ eq_refl)].
    eapply h_bind with (R := fun r h => r = key_pair_texts sha512 pk sk /\ exists h0, silent h = h0 ++ [SKeypair (pk, sk)]); [apply h_lift; auto| |auto|auto].
    intros [pt t]. apply h_and. intros Et. symmetry in Et.
    eapply h_bind; [apply (k_ui (fun l => exists h0, l = h0 ++ [SKeypair (pk, sk)]))| |auto|auto]. intros a0. cbv beta. clear a0.
    eapply h_bind; [apply (k_ui (fun l => exists h0, l = h0 ++ [SKeypair (pk, sk)]))| |auto|auto]. intros a0. cbv beta. clear a0.
    eapply h_bind with (R := fun _ _ => True); [eapply h_try; [apply (ho_write_pair ks pk sk pt t); [apply Hi; left; reflexivity|exact Et]|auto|auto]| |auto|auto].
    intros res. eapply h_bind with (R := fun _ _ => True); [| |auto|auto].
    + destruct res as [[]|e|]; [apply h_ret; auto| |apply h_lift; auto]. eapply h_bind with (R := fun _ _ => True); [apply h_ui; [intros; exact I|auto]| |auto|auto]. intros _. apply h_ret. auto.
    + intros errors. eapply h_bind with (R := fun _ _ => True); [apply h_ui; [intros; exact I|auto]| |auto|auto]. intros a0. cbv beta. clear a0.
      eapply h_bind with (R := fun _ _ => True); [apply IH; intros x Ix; apply Hi; right; exact Ix| |auto|auto]. intros e'. apply h_ret. auto.
Qed.
Lemma key_justified u r h u' : key_calls lib sha512 all force u r h u' -> forall b e, happens h b e -> justified_key b e.
Proof.
  intros H b e [a E]. assert (K : ho (fun _ => True) (generate_key_pair_files_p trace (any_os lib) lib sha512 all force) (fun _ _ => True)).
  { unfold generate_key_pair_files_p. cbn [any_os p_bind p_lift]. eapply h_bind with (R := fun _ _ => True); [apply h_lift; auto| |auto|auto]. intros cs.
    eapply h_bind with (R := fun _ _ => True); [apply ho_generate_all; intros x I; exact I| |auto|auto]. intros errors. apply h_lift. auto. }
  exact (proj1 (K [] u r h u' I H) b e a E).
Qed.
End Keys.

(** ** Runs of Commands are such runs *)
Section Link.
Variable entry_of : names.
Variable lib : crypto_lib.
Variable sha512 : bytes -> bytes.
Local Notation alone := (shared entry_of nothing).
Definition links {A} (m : io A) (t : trace A) : Prop := forall w r w', m w r w' -> exists h, t (w_ui w) (Some r) h (w_ui w') /\ alone w h w'.

Lemma alone_app h1 h2 w w1 w2 : alone w h1 w1 -> alone w1 h2 w2 -> alone w (h1 ++ h2) w2.
Proof. intros H. induction H as [w|e h w w1 w' T H IH|f h w w' [] H IH]; intros K; [exact K|]. cbn. econstructor; eauto. Qed.
Lemma alone_one e w w' : takes entry_of e w w' -> alone w [e] w'.
Proof. intros T. econstructor; [exact T|constructor]. Qed.

Lemma l_lift {A} (x : outcome cerr A) : links (io_lift x) (t_lift x).
Proof. intros w r w' [-> ->]. exists []. split; [repeat split|constructor]. Qed.
Lemma l_ret {A} (x : A) : links (io_ret x) (t_ret x).
Proof. intros w r w' [-> ->]. exists []. split; [repeat split|constructor]. Qed.
Lemma l_bind {A B} (m : io A) t (f : A -> io B) g : links m t -> (forall a, links (f a) (g a)) -> links (io_bind m f) (t_bind t g).
Proof.
  intros M F w r w' [(a & w1 & H1 & H2)|[(e & H & ->)|(H & ->)]].
  - destruct (M _ _ _ H1) as (h1 & T1 & S1). destruct (F a _ _ _ H2) as (h2 & T2 & S2). exists (h1 ++ h2). split; [left; exists a, h1, (w_ui w1), h2; auto|eapply alone_app; eassumption].
  - destruct (M _ _ _ H) as (h1 & T1 & S1). exists h1. split; [right; left; eauto|exact S1].
  - destruct (M _ _ _ H) as (h1 & T1 & S1). exists h1. split; [right; right; left; eauto|exact S1].
Qed.
Lemma l_try {A} (m : io A) t : links m t -> links (io_try m) (t_try t).
Proof.
  intros M w r w' [(x & Nx & H & ->)|(H & ->)]; destruct (M _ _ _ H) as (h1 & T1 & S1); exists h1; (split; [|exact S1]); [left; eauto|right; left; auto].
Qed.
Lemma l_ui {A} (m : act A) : links (io_ui m) (t_ui m).
Proof.
  intros w r w' [-> ->]. eexists. split; [split; [reflexivity|]; left; split; reflexivity|]. apply alone_one. exists (snd (m (w_ui w))). split; reflexivity.
Qed.
Lemma l_call {A} (m : io A) (c : outcome cerr A -> syscall) : (forall w r w', m w r w' -> r <> Panic /\ w_ui w' = w_ui w /\ takes entry_of (c r) w w') -> links m (t_call c).
Proof. intros H w r w' M. destruct (H _ _ _ M) as (N & U & T). exists [c r]. split; [|apply alone_one, T]. split; [congruence|]. left. exists r. auto. Qed.
Lemma l_open_read p : links (open_read entry_of p) (t_call (SOpenRead p)).
Proof.
  apply l_call. intros w r w' H. split; [|split; [destruct H as [-> _]; reflexivity|exact H]]. destruct H as [_ [[-> _]|(s & t & _ & _ & [(i & _ & ->)|[_ ->]])]]; discriminate.
Qed.
Lemma l_stat p : links (symlink_metadata entry_of p) (t_call (SStat p)).
Proof.
  apply l_call. intros w r w' H. split; [|split; [destruct H as [-> _]; reflexivity|exact H]]. destruct H as [_ [[-> _]|(s & md & _ & _ & ->)]]; discriminate.
Qed.
Lemma l_create_new p : links (create_new entry_of p) (t_call (SCreateNew p)).
Proof. apply l_call. intros w r w' H. split; [|split; [|exact H]]; destruct H as [(-> & -> & _)|(s & i & _ & _ & _ & -> & ->)]; try discriminate; reflexivity. Qed.
Lemma l_create_or_truncate p : links (create_or_truncate entry_of p) (t_call (SCreateOrTruncate p)).
Proof.
  apply l_call. intros w r w' H. split; [|split; [|exact H]]; destruct H as [(-> & -> & _)|(s & t & i & _ & _ & -> & [(_ & _ & ->)|(n & _ & _ & ->)])]; try discriminate; try reflexivity.
  destruct (n_regular n); reflexivity.
Qed.
Lemma l_remove p : links (remove_file entry_of p) (t_call (SRemove p)).
Proof.
  apply l_call. intros w r w' H. assert (K : r <> Panic /\ w_ui w' = w_ui w).
  { unfold remove_file in H. destruct (entry_of p) as [s|]; [|destruct H as [-> ->]; split; [discriminate|reflexivity]].
    destruct (f_entries (w_fs w) s) as [[i|t|]|]; try (destruct H as [-> ->]; split; [discriminate|reflexivity]); destruct H as [(_ & -> & ->)|(-> & ->)]; (split; [discriminate|reflexivity]). }
  destruct K. auto.
Qed.
Lemma l_stdin : links open_stdin t_stdin.
Proof.
  intros w r w' H. unfold open_stdin in H. unfold t_stdin. destruct (u_input (w_ui w)) as [s|] eqn:E; destruct H as [-> ->].
  - exists [STakeStdin s]. split; [repeat split; auto|]. apply alone_one. cbn [takes]. unfold open_stdin. rewrite E. split; reflexivity.
  - exists []. split; [repeat split|constructor].
Qed.
Lemma l_convert d rd wr : links (convert entry_of lib d rd wr) (t_convert lib d rd wr).
Proof.
  intros w r w' (er & src & room & fl & r0 & snk & lines & Hr & _ & Hp & Hc & [(-> & ->)|(-> & _ & out & Po & ->)]).
  - eexists. split.
    + exists er, src, room, fl, r0, snk, lines. split; [exact Hr|]. split; [intros s ->; exact Hp|]. split; [exact Hc|]. split; [cbn; rewrite write_out_ui; reflexivity|]. left. split; reflexivity.
    + apply alone_one. split; [exact Hp|]. exists lines. reflexivity.
  - eexists. split.
    + exists er, src, room, fl, r0, snk, lines. split; [exact Hr|]. split; [intros s ->; exact Hp|]. split; [exact Hc|]. split; [cbn; rewrite write_out_ui; reflexivity|]. right. exists out. split; [exact Po|]. split; [reflexivity|auto].
    + apply alone_one. split; [exact Hp|]. exists lines. reflexivity.
Qed.
Lemma l_write_text wr t : links (write_text entry_of wr t) (t_write_text wr t).
Proof.
  intros w r w' [(-> & ->)|(_ & -> & out & Po & ->)]; [exists [SWriteText wr t (utf8 t) (Ok tt)]|exists [SWriteText wr t out (Err CIo)]];
    (split; [split; [apply write_out_ui|]|apply alone_one; reflexivity]).
  - exists (utf8 t), (Ok tt). split; [exists []; rewrite app_nil_r; reflexivity|]. split; [discriminate|]. auto.
  - exists out, (Err CIo). split; [exact Po|]. split; [discriminate|]. split; [discriminate|auto].
Qed.
Lemma l_keypair cs : links (generate_keypair cs) (t_keypair cs).
Proof. intros w r w' (-> & seed & ->). eexists. split; [split; [reflexivity|]; exists seed; split; [reflexivity|auto]|]. apply alone_one. reflexivity. Qed.
Lemma l_print : links (print_text entry_of) t_print_text.
Proof.
  intros w r w' (out & -> & D). exists [SStdout out r]. split; [split; [reflexivity|]; exists out, r; split; [|auto]|apply alone_one; reflexivity]. destruct D as [->|[_ ->]]; discriminate.
Qed.

Local Notation o := (any_os lib).
Ltac lstep := match goal with
  | |- links (io_bind _ _) _ => apply l_bind; [|intros]
  | |- links (io_try _) _ => apply l_try
  | |- links (io_ui _) _ => apply l_ui
  | |- links (io_lift _) _ => apply l_lift
  | |- links (io_ret _) _ => apply l_ret
  end.
Lemma l_open_file p : links (open_file entry_of p) (open_file_p trace o p).
Proof. unfold open_file, open_file_p. lstep; [apply l_open_read|]. lstep; [apply l_stat|]. repeat lstep. Qed.
Lemma l_open_input i force : links (open_input entry_of i force) (open_input_p trace o i force).
Proof.
  destruct i as [p|p|]; cbn [open_input open_input_p]; [| |apply l_stdin]; (lstep; [apply l_open_file|]); match goal with a : _ * _ |- _ => destruct a end; repeat lstep.
Qed.
Lemma l_open_output out force : links (open_output entry_of out force) (open_output_p trace o out force).
Proof. destruct out as [p|]; cbn [open_output open_output_p]; [|apply l_ret]. destruct force; [apply l_create_or_truncate|apply l_create_new]. Qed.
Lemma l_remove_cb p force : links (remove_cb entry_of p force) (remove_cb_p trace o p force).
Proof. unfold remove_cb, remove_cb_p. lstep; [lstep; apply l_remove|]. destruct a as [[]|e|]; [apply l_ret| |apply l_ret]. destruct force; repeat lstep. Qed.
Lemma l_attempt {k n} s force d : links (attempt entry_of lib k n s force d) (attempt_p trace o k n s force d).
Proof.
  unfold attempt, attempt_p. lstep.
  - lstep. lstep; [lstep|]. lstep; [lstep|]. lstep; [apply l_open_input|]. lstep; [apply l_open_output|]. lstep.
  - destruct a as [[[rd wr] cb]|e|]; [|lstep|lstep]. lstep; [lstep; apply l_convert|lstep].
Qed.
Lemma l_step {k n} s force d : links (step entry_of lib k n s force d) (step_p trace o k n s force d).
Proof.
  unfold step, step_p. lstep; [apply l_attempt|]. destruct a as [[[]|e|] cb]; [lstep| |lstep]. lstep; [lstep|]. lstep; [destruct cb; [apply l_remove_cb|lstep]|lstep].
Qed.
Lemma l_process {k n} l force d : links (process entry_of lib k n l force d) (process_p trace o k n l force d).
Proof.
  revert k. induction l as [|s l IH]; intros k; cbn [process process_p]; [lstep|]. lstep; [apply l_step|]. destruct a as [cbs errors]. lstep; [lstep|]. lstep; [apply IH|]. match goal with a : _ * _ |- _ => destruct a end. lstep.
Qed.
Lemma l_remove_all l force : links (remove_all entry_of l force) (remove_all_p trace o l force).
Proof. induction l as [|p l IH]; cbn [remove_all remove_all_p]; [lstep|]. lstep; [apply l_remove_cb|exact IH]. Qed.
Lemma l_crypt l policy force d : links (crypt_streams entry_of lib l policy force d) (crypt_calls lib l policy force d).
Proof.
  unfold crypt_streams, crypt_calls, crypt_streams_p. lstep; [apply l_process|]. destruct a as [cbs errors]. lstep; [|lstep]. destruct cbs as [|p cbs]; [lstep|]. lstep.
  - destruct policy; repeat lstep.
  - destruct a; [apply (l_remove_all (p :: cbs))|lstep].
Qed.
Lemma l_write_pair ks force pt t : links (write_pair entry_of ks force pt t) (write_pair_p trace o ks force pt t).
Proof.
  unfold write_pair, write_pair_p. lstep.
  - destruct (k_public ks); [|lstep]. lstep; [lstep|]. lstep; [apply l_open_output|apply l_write_text].
  - lstep; [lstep|]. lstep; [apply l_open_output|apply l_write_text].
Qed.
Lemma l_generate_all {k n} cs l force : links (generate_all entry_of sha512 k n cs l force) (generate_all_p trace o sha512 k n cs l force).
Proof.
  revert k. induction l as [|ks l IH]; intros k; cbn [generate_all generate_all_p]; [lstep|]. lstep; [apply l_keypair|]. destruct a as [pk sk]. lstep; [lstep|]. destruct a as [pt t].
  lstep; [lstep|]. lstep; [lstep|]. lstep; [lstep; apply l_write_pair|]. lstep; [match goal with x : outcome cerr unit |- _ => destruct x as [[]|e|] end; repeat lstep|]. lstep; [lstep|]. lstep; [apply IH|lstep].
Qed.
Lemma l_keys l force : links (generate_key_pair_files entry_of lib sha512 l force) (key_calls lib sha512 l force).
Proof. unfold generate_key_pair_files, key_calls, generate_key_pair_files_p. lstep; [lstep|]. lstep; [apply l_generate_all|lstep]. Qed.
Lemma l_run c : links (run_command entry_of lib sha512 c) (run_command_p trace o lib sha512 c).
Proof. destruct c; cbn [run_command run_command_p]; [apply l_crypt|apply l_keys|apply l_print|apply l_print]. Qed.
End Link.

(** Proofs about what appears on the terminal (C70): the commands. *)
From Coq.Strings Require Import Byte String.
From Coq Require Import List NArith ZArith Bool Permutation Lia.
From Verif Require Import Base BaseFacts Text Util UtilSpec UtilProofs2 CliErrors Getopts Crypto HeaderCrypto KeyFiles Io FileCrypto Ui UiSpec UiProofs2 CliCreds CliSpec CliProofs CliProofs3 Paths Cli Fs Commands PathSpec PathProofs OptSpec OptProofs CmdProofs CmdSpec ShowSpec ShowProofs.
Import ListNotations.
Local Open Scope N_scope.

Ltac simple_error := apply harmless_simple; discriminate.

Section WithMessages.
Variable S : message -> Prop.
Notation shows := (shows S).
Notation says := (says S).
Notation tells := (tells S).
Notation same := (shows_same S _ _ eq_refl).

Lemma tells_lift {A} (x : outcome cerr A) : (forall e, x = Err e -> harmless e) -> tells (io_lift x).
Proof. intros H w r w' [-> ->]. split; [exact same|exact H]. Qed.
Lemma tells_ret {A} (a : A) : tells (io_ret a).
Proof. intros w r w' [-> ->]. split; [exact same|discriminate]. Qed.
Lemma tells_ui {A} (m : act A) : says m -> tells (io_ui m).
Proof. intros H w r w' [-> ->]. destruct (m (w_ui w)) as [x u'] eqn:E. cbn [fst snd w_ui set_ui]. exact (H _ _ _ E). Qed.
Lemma tells_bind {A B} (m : io A) (f : A -> io B) : tells m -> (forall a, (exists w w', m w (Ok a) w') -> tells (f a)) -> tells (io_bind m f).
Proof.
  intros Hm Hf w r w' [(a & w1 & E & H)|[(e & E & ->)|[E ->]]].
  - destruct (Hm _ _ _ E) as [S1 _]. destruct (Hf a (ex_intro _ _ (ex_intro _ _ E)) _ _ _ H) as [S2 He]. split; [eapply shows_trans; eassumption|exact He].
  - destruct (Hm _ _ _ E) as [S1 He]. split; [exact S1|]. intros e' [= <-]. apply He. reflexivity.
  - split; [apply (Hm _ _ _ E)|discriminate].
Qed.
(** Here the errors are in the result. *)
Lemma tells_try_bind {A B} (m : io A) (f : outcome cerr A -> io B) : tells m -> (forall a, tells (f (Ok a))) -> (forall e, harmless e -> tells (f (Err e))) -> tells (io_bind (io_try m) f).
Proof.
  intros Hm Hf He w r w' [(x & w1 & T & H)|[(e & T & _)|[T ->]]]; destruct T as [(x' & Nx & E & E')|[E E']]; try discriminate E'.
  - injection E' as ->. rename x' into x. destruct (Hm _ _ _ E) as [S1 E1]. destruct x as [a|e|]; [| |congruence].
    + destruct (Hf a _ _ _ H) as [S2 X]. split; [eapply shows_trans; eassumption|exact X].
    + destruct (He e (E1 e eq_refl) _ _ _ H) as [S2 X]. split; [eapply shows_trans; eassumption|exact X].
  - split; [apply (Hm _ _ _ E)|discriminate].
Qed.
Lemma tells_still {A} (m : io A) : (forall w r w', m w r w' -> w_ui w' = w_ui w /\ forall e, r = Err e -> harmless e) -> tells m.
Proof. intros H w r w' E. destruct (H _ _ _ E) as [E1 E2]. split; [apply shows_same; rewrite E1; reflexivity|exact E2]. Qed.
Lemma ensure_harmless c (e e' : cerr) : harmless e -> ensure c e = Err e' -> harmless e'.
Proof. intros H. unfold ensure. destruct c; [discriminate|intros [= <-]; exact H]. Qed.
Lemma write_ui wr d w : w_ui (write_out wr d w) = w_ui w.
Proof.
  destruct wr; cbn [write_out]; [|reflexivity]. destruct (f_nodes (w_fs w) i) as [n|]; [|reflexivity]. destruct (n_regular n); [|reflexivity].
  generalize (seq 1 (length d)). intros l. revert w. induction l as [|k l IH]; intros w; [reflexivity|]. cbn [fold_left]. rewrite IH. reflexivity.
Qed.

Section WithEnvironment.
Variable entry_of : names.
Variable lib : crypto_lib.

Lemma tells_open_file p : tells (open_file entry_of p).
Proof.
  apply tells_bind. { apply tells_still. intros w r w' (-> & [[-> _]|(s & t & _ & _ & [(i & _ & ->)|[_ ->]])]); (split; [reflexivity|]); try discriminate. intros e [= <-]. simple_error. }
  intros rd _. apply tells_bind. { apply tells_still. intros w r w' (-> & [[-> _]|(s & md & _ & _ & ->)]); (split; [reflexivity|]); try discriminate. intros e [= <-]. simple_error. }
  intros md _. apply tells_bind. { apply tells_lift. intros e. apply ensure_harmless. simple_error. } intros _ _. apply tells_ret.
Qed.
Lemma tells_open_input i force : tells (open_input entry_of i force).
Proof.
  destruct i as [p|p|]; cbn [open_input].
  - apply tells_bind; [apply tells_open_file|]. intros [rd md] _.
    do 3 (apply tells_bind; [apply tells_lift; intros e; apply ensure_harmless; simple_error|]; intros _ _). apply tells_ret.
  - apply tells_bind; [apply tells_open_file|]. intros [rd md] _. apply tells_ret.
  - intros w r w' H. unfold open_stdin in H. destruct (u_input (w_ui w)); destruct H as [-> ->]; (split; [exact same|discriminate]).
Qed.
Lemma tells_open_output o force : tells (open_output entry_of o force).
Proof.
  destruct o as [p|]; cbn [open_output]; [|apply tells_ret]. destruct force; apply tells_still.
  - intros w r w' [(-> & -> & _)|(s & t & i & _ & _ & -> & [(_ & _ & ->)|(n & _ & _ & ->)])].
    + split; [reflexivity|]. intros e [= <-]. simple_error.
    + split; [reflexivity|discriminate].
    + split; [destruct (n_regular n); reflexivity|discriminate].
  - intros w r w' [(-> & -> & _)|(s & i & _ & _ & _ & -> & ->)].
    + split; [reflexivity|]. intros e [= <-]. simple_error.
    + split; [reflexivity|discriminate].
Qed.
Hypothesis S_error : forall e, harmless e -> S (MError e).
Hypothesis S_progress : S MProgress.
Hypothesis S_blank : S (MLine []).
Lemma tells_remove_cb p force : tells (remove_cb entry_of p force).
Proof.
  apply tells_try_bind.
  - apply tells_still. intros w r w' H. unfold remove_file in H. destruct (entry_number entry_of p) as [s|]; [destruct (f_entries (w_fs w) s) as [[]|]|].
    + destruct H as [(_ & -> & ->)|[-> ->]]; (split; [reflexivity|]); [intros e [= <-]; simple_error|discriminate].
    + destruct H as [(_ & -> & ->)|[-> ->]]; (split; [reflexivity|]); [intros e [= <-]; simple_error|discriminate].
    + destruct H as [-> ->]. split; [reflexivity|]. intros e [= <-]. simple_error.
    + destruct H as [-> ->]. split; [reflexivity|]. intros e [= <-]. simple_error.
    + destruct H as [-> ->]. split; [reflexivity|]. intros e [= <-]. simple_error.
  - intros _. apply tells_ret.
  - intros e He. destruct force; [apply tells_ret|]. apply tells_ui, says_ignore, says_error, S_error, He.
Qed.
Lemma shows_progress n : forall u, shows u (progress_lines n u).
Proof.
  induction n as [|n IH]; intros u; cbn [progress_lines]; [exact same|]. apply shows_trans with (snd (println_progress 0 u)); [|apply IH].
  destruct (println_progress 0 u) as [r u'] eqn:E. cbn [snd]. unfold println_progress in E. destruct (u_progress_enabled u); [|injection E as _ <-; exact same].
  destruct (will_print u 0); [|injection E as _ <-; exact same]. apply (says_emit S MProgress S_progress _ _ _ E).
Qed.
Lemma tells_convert d rd wr : tells (convert entry_of lib d rd wr).
Proof.
  intros w r w' (er & src & room & fl & r0 & snk & lines & _ & _ & _ & _ & H).
  assert (X : forall out, shows (w_ui w) (w_ui (let w1 := write_out wr out w in set_ui w1 (progress_lines lines (w_ui w1))))).
  { intros out. cbv zeta. cbn [set_ui w_ui]. rewrite write_ui. apply shows_progress. }
  destruct H as [[-> ->]|(-> & _ & out & _ & ->)]; (split; [apply X|]); [|discriminate].
  intros e. unfold conversion_result. destruct r0 as [[]|e0|]; try discriminate. intros [= <-]. simple_error.
Qed.

Definition stream_ok (k n : nat) (s : io_stream) : Prop :=
  S (MLine (file_header k n s)) /\
  forall e, s_output s = Err e -> harmless e.
Lemma tells_attempt_then {k n} {B} s force d (f : outcome cerr unit * option path -> io B) : stream_ok k n s ->
  (forall a cb, tells (f (Ok a, cb))) -> (forall e cb, harmless e -> tells (f (Err e, cb))) -> tells (io_bind (attempt entry_of lib k n s force d) f).
Proof.
  intros [Hs He] Hf Hg. unfold attempt.
  assert (T : tells (let! opened := io_try (
    let! _ := io_ui (ignore (ui_println 0 (file_header k n s))) in
    let! output := io_lift (s_output s) in
    let! rd := open_input entry_of (s_input s) force in
    let! wr := open_output entry_of output force in
    io_ret (rd, wr, output_cleanup output)) in
   match opened with
   | Ok (rd, wr, cb) => let! r := io_try (convert entry_of lib d rd wr) in f (r, cb)
   | Err e => f (Err e, None)
   | Panic => io_lift Panic
   end)).
  { apply tells_try_bind.
    - apply tells_bind; [apply tells_ui, says_ignore, says_println, Hs|]. intros _ _. apply tells_bind; [apply tells_lift, He|]. intros o _.
      apply tells_bind; [apply tells_open_input|]. intros rd _. apply tells_bind; [apply tells_open_output|]. intros wr _. apply tells_ret.
    - intros [[rd wr] cb]. apply tells_try_bind; [apply tells_convert| |]; auto.
    - intros e X. auto. }
  intros w r w' H. apply (T w r w'). clear -H.
  destruct H as [(a & w1 & H & F)|[(e & H & ->)|[H ->]]].
  - destruct H as [(o & w2 & Ho & H)|[(e & _ & X)|[_ X]]]; try discriminate X. left. exists o, w2. split; [exact Ho|].
    destruct o as [[[rd wr] cb]|e|].
    + destruct H as [(x & w3 & Hx & [E <-])|[(e & _ & X)|[_ X]]]; try discriminate X. injection E as ->. left. exists x, w1. auto.
    + destruct H as [[= ->] <-]. exact F.
    + destruct H as [X _]. discriminate X.
  - destruct H as [(o & w2 & Ho & H)|[(e' & H & [= <-])|[_ X]]]; try discriminate X.
    + left. exists o, w2. split; [exact Ho|]. destruct o as [[[rd wr] cb]|e'|].
      * destruct H as [(x & w3 & Hx & [E _])|[(e' & Hx & [= <-])|[_ X]]]; try discriminate. right. left. eauto.
      * destruct H as [X _]. discriminate X.
      * destruct H as [X _]. discriminate X.
    + right. left. eauto.
  - destruct H as [(o & w2 & Ho & H)|[(e' & _ & X)|[H _]]]; try discriminate X.
    + left. exists o, w2. split; [exact Ho|]. destruct o as [[[rd wr] cb]|e'|].
      * destruct H as [(x & w3 & Hx & [E _])|[(e' & Hx & X)|[Hx _]]]; try discriminate. right. right. eauto.
      * destruct H as [X _]. discriminate X.
      * destruct H as [_ ->]. split; reflexivity.
    + right. right. eauto.
Qed.
Lemma tells_step {k n} s force d : stream_ok k n s -> tells (step entry_of lib k n s force d).
Proof.
  intros Hs. apply tells_attempt_then; [exact Hs|intros; apply tells_ret|]. intros e cb He.
  apply tells_bind; [apply tells_ui, says_ignore, says_error, S_error, He|]. intros _ _.
  apply tells_bind; [destruct cb; [apply tells_remove_cb|apply tells_ret]|]. intros _ _. apply tells_ret.
Qed.
Lemma tells_process {k n} streams force d : (forall i s, nth_error streams i = Some s -> stream_ok (k + i) n s) -> tells (process entry_of lib k n streams force d).
Proof.
  revert k. induction streams as [|s streams IH]; intros k Hs; cbn [process]; [apply tells_ret|]. apply tells_bind; [apply tells_step; specialize (Hs 0%nat s eq_refl); rewrite Nat.add_0_r in Hs; exact Hs|]. intros [c e] _.
  apply tells_bind; [apply tells_ui, says_println, S_blank|]. intros _ _. apply tells_bind; [apply IH; intros i s' E; replace (Datatypes.S k + i)%nat with (k + Datatypes.S i)%nat by lia; apply Hs, E|]. intros [c' e'] _. apply tells_ret.
Qed.
Lemma tells_remove_all cbs force : tells (remove_all entry_of cbs force).
Proof. induction cbs as [|p cbs IH]; cbn [remove_all]; [apply tells_ret|]. apply tells_bind; [apply tells_remove_cb|]. intros _ _. exact IH. Qed.

Hypothesis S_remove : S (MPrompt (lit "Remove original file(s)? [y/N]: ")).
Hypothesis S_again : S (MLine (lit "Invalid input, please enter 'y' or 'n'.")).
Lemma says_removal : says (read_prompt (lit "Remove original file(s)? [y/N]: ")).
Proof.
  intros u r u' H. destruct (read_prompt_cases _ _ _ _ H) as (_ & [(t & s & s' & -> & _ & _ & _ & Tr)|(e & -> & [Tr|Tr])]).
  - split; [|discriminate]. eexists. split; [exact Tr|]. split; [reflexivity|]. split; [|intros m [<-|[]]; exact S_remove].
    intros [|e [|e' [|e'' b]]] line after X; try discriminate X. injection X as <- _ _. right. exists []. reflexivity.
  - split; [apply shows_same, Tr|]. intros e' [= <-]. eapply read_prompt_error, H.
  - split; [eapply shows_one; [exact Tr|exact S_remove]|]. intros e' [= <-]. eapply read_prompt_error, H.
Qed.
Lemma says_question : says (read_prompt_bool 0 question false).
Proof.
  assert (L : forall fuel, says (prompt_loop fuel (lit "Remove original file(s)? [y/N]: ") false)).
  { induction fuel as [|fuel IH]; cbn [prompt_loop]; [apply says_lift; discriminate|]. apply says_bind; [apply says_removal|]. intros t _. cbv zeta.
    destruct (_ || _); [apply says_ret|]. destruct (_ || _); [apply says_ret|]. destruct (text_eqb _ []); [apply says_ret|].
    apply says_bind; [apply says_interactive, S_again|]. intros _ _. exact IH. }
  intros u r u' H. unfold read_prompt_bool in H. destruct (_ || _); [injection H as <- <-; split; [exact same|discriminate]|].
  refine (says_bind S _ _ (L _) _ u r u' H). intros b _. apply says_ret.
Qed.
Lemma tells_crypt streams policy force d : (forall i s, nth_error streams i = Some s -> stream_ok i (length streams) s) -> tells (crypt_streams entry_of lib streams policy force d).
Proof.
  intros F. apply tells_bind; [apply tells_process; intros i s E; apply F, E|]. intros [cbs errors] _. apply tells_bind.
  - destruct cbs as [|p cbs]; [apply tells_ret|]. apply tells_bind.
    + destruct policy; try apply tells_ret. apply tells_bind; [apply tells_ui, says_question|]. intros a _. apply tells_ret.
    + intros b _. destruct b; [apply tells_remove_all|apply tells_ret].
  - intros _ _. apply tells_lift. destruct errors; [discriminate|]. intros e [= <-]. simple_error.
Qed.

Variable sha512 : bytes -> bytes.
Lemma tells_write wr t : tells (write_text entry_of wr t).
Proof.
  apply tells_still. intros w r w' [[-> ->]|(_ & -> & out & _ & ->)]; (split; [apply write_ui|]); [discriminate|]. intros e [= <-]. simple_error.
Qed.
Definition pair_ok (k : key_streams) : Prop :=
  (forall p, k_public k = Some p -> S (MLine (lit "    Public key file: " ++ path_text p))) /\ S (MLine (lit "    Private key file: " ++ output_path (k_private k))).
Lemma tells_pair k force a b : pair_ok k -> tells (write_pair entry_of k force a b).
Proof.
  intros [H1 H2]. apply tells_bind.
  - destruct (k_public k) as [p|]; [|apply tells_ret]. apply tells_bind; [apply tells_ui, says_println, H1; reflexivity|]. intros _ _.
    apply tells_bind; [apply tells_open_output|]. intros wr _. apply tells_write.
  - intros _ _. apply tells_bind; [apply tells_ui, says_println, H2|]. intros _ _. apply tells_bind; [apply tells_open_output|]. intros wr _. apply tells_write.
Qed.
Lemma tells_generate_all {k n} cs streams force :
  (forall seed, S (MLine (lit "    Public key: " ++ trim (to_hex_string_checksummed sha512 (fst (cs_keypair cs seed)) ++ [10])))) ->
  (forall i, (i < length streams)%nat -> S (MLine (keypair_header (k + i) n))) -> Forall pair_ok streams -> tells (generate_all entry_of sha512 k n cs streams force).
Proof.
  intros Hp Hn F. revert k Hn. induction F as [|ks streams Hk _ IH]; intros k Hn; cbn [generate_all]; [apply tells_ret|]. apply tells_bind.
  { apply tells_still. intros w r w' (-> & seed & ->). split; [reflexivity|discriminate]. }
  intros [pk sk] (w0 & w0' & _ & seed & [= E0]). apply tells_bind.
  { apply tells_lift. unfold key_pair_texts, bind, assert. destruct (bytes_eqb _ _); discriminate. }
  intros [a b] (w1 & w1' & E1 & _). unfold key_pair_texts, bind, assert in E1. destruct (bytes_eqb _ _); [|discriminate E1]. injection E1 as -> ->.
  apply tells_bind; [apply tells_ui, says_println; specialize (Hn 0%nat ltac:(cbn; lia)); rewrite Nat.add_0_r in Hn; exact Hn|]. intros _ _.
  apply tells_bind. { apply tells_ui, says_println. specialize (Hp seed). rewrite <- E0 in Hp. exact Hp. } intros _ _.
  apply tells_try_bind; [apply tells_pair, Hk| |].
  - intros _. apply tells_bind; [apply tells_ret|]. intros es _. apply tells_bind; [apply tells_ui, says_println, S_blank|]. intros _ _. apply tells_bind; [apply IH; intros i L; replace (Datatypes.S k + i)%nat with (k + Datatypes.S i)%nat by lia; apply Hn; cbn; lia|]. intros es' _. apply tells_ret.
  - intros e He. apply tells_bind; [apply tells_bind; [apply tells_ui, says_error, S_error, He|intros; apply tells_ret]|]. intros es _.
    apply tells_bind; [apply tells_ui, says_println, S_blank|]. intros _ _. apply tells_bind; [apply IH; intros i L; replace (Datatypes.S k + i)%nat with (k + Datatypes.S i)%nat by lia; apply Hn; cbn; lia|]. intros es' _. apply tells_ret.
Qed.
Lemma tells_generate streams force :
  (forall cs seed, lib ChaCha20Poly1305Ietf = Some cs -> S (MLine (lit "    Public key: " ++ trim (to_hex_string_checksummed sha512 (fst (cs_keypair cs seed)) ++ [10])))) ->
  (forall i, (i < length streams)%nat -> S (MLine (keypair_header i (length streams)))) -> Forall pair_ok streams -> tells (generate_key_pair_files entry_of lib sha512 streams force).
Proof.
  intros Hp Hn F. apply tells_bind.
  { apply tells_lift. destruct (lib _); [discriminate|]. intros e [= <-]. simple_error. }
  intros cs (w & w' & E & _). destruct (lib ChaCha20Poly1305Ietf) as [cs'|] eqn:L; [|discriminate E]. injection E as <-.
  apply tells_bind; [apply tells_generate_all; [intros seed; apply Hp; reflexivity|exact Hn|exact F]|]. intros es _. apply tells_lift. destruct es; [discriminate|]. intros e [= <-]. simple_error.
Qed.
Lemma tells_text : tells (print_text entry_of).
Proof.
  apply tells_still. intros w r w' (out & -> & H). split; [apply write_ui|]. destruct H as [->|[_ ->]]; [discriminate|]. intros e [= <-]. simple_error.
Qed.
End WithEnvironment.
End WithMessages.

(** ** The whole program *)
Section WithProgram.
Variable entry_of : names.
Variable lib : crypto_lib.
Variable sha512 : bytes -> bytes.
Variable files : text -> option bytes.

Lemma options_error args e : parse_options args = Err e -> harmless e.
Proof.
  unfold parse_options, bind. destruct (parse_args 0 args) as [[occs free]|e1|] eqn:E; [|intros [= <-]|discriminate].
  - unfold ensure. destruct (forallb _ _); [discriminate|intros [= <-]; simple_error].
  - destruct (read_or_wrong (length args) 0 args (le_n _)) as [(os & f & R)|(e2 & G)].
    + rewrite (reads_parse _ _ _ _ R) in E. discriminate E.
    + rewrite (goes_wrong_parse _ _ G) in E. injection E as <-. clear -G. induction G as [args e W|]; [|assumption]. destruct W; simple_error.
Qed.
Lemma streams_error m d force e : get_input_output_streams m d force = Err e -> harmless e.
Proof.
  unfold get_input_output_streams. cbv zeta. destruct (_ || _).
  - destruct (m_free m) as [|a [|b l]]; [discriminate|discriminate|intros [= <-]; simple_error].
  - unfold bind at 1, ensure. destruct (negb _); [discriminate|intros [= <-]; simple_error].
Qed.
Lemma stream_output_error m d force streams : get_input_output_streams m d force = Ok streams ->
  Forall (fun s => forall e, s_output s = Err e -> harmless e) streams.
Proof.
  unfold get_input_output_streams. cbv zeta. destruct (_ || _).
  - destruct (m_free m) as [|a [|b l]]; [| |discriminate]; intros [= <-]; repeat constructor; discriminate.
  - unfold bind at 1, ensure. destruct (negb _); [|discriminate]. intros [= <-]. apply Forall_forall. intros s Hs. apply in_map_iff in Hs as (a & <- & _).
    cbn [s_output]. intros e. unfold bind. destruct d; [unfold add_extension|unfold remove_extension]; cbv zeta; unfold bind, ensure; destruct (_ : bool); try discriminate; intros [= <-]; simple_error.
Qed.
Lemma keypair_error l : forall taken e, keypair_streams taken l = Err e -> harmless e.
Proof.
  induction l as [|a l IH]; intros taken e H; cbn [keypair_streams] in H; [discriminate H|]. destruct (text_eqb a dash).
  - unfold bind at 1, ensure in H. destruct (negb taken); [|injection H as <-; simple_error]. unfold bind in H.
    destruct (keypair_streams true l) eqn:E; try discriminate H. injection H as <-. eapply IH, E.
  - unfold bind in H. destruct (keypair_streams taken l) eqn:E; try discriminate H. injection H as <-. eapply IH, E.
Qed.
Lemma get_keypair_error m e : get_keypair_streams m = Err e -> harmless e.
Proof. unfold get_keypair_streams, bind, ensure. destruct (m_free m) as [|a l]; [intros [= <-]; simple_error|]. apply keypair_error. Qed.

Lemma names_given args occs free ts : parse_options args = Ok (mkMatches occs free) -> extract_tokens (mkMatches occs free) = Ok ts ->
  forall n, In (NamedInteractivePassword n) ts -> given_value OPasswordNamed n occs.
Proof.
  intros P E n I. destruct (extract_order sha512 files _ _ (parse_options_later _ _ P) E) as (o & F & Pm & _). apply (Permutation_in _ Pm) in I.
  assert (X : exists x, In x (credential_occs (mkMatches occs free)) /\ occ_token x (NamedInteractivePassword n)).
  { clear -F I. induction F as [|x t l l' H F IH]; [destruct I|]. destruct I as [<-|I]; [exists x; split; [left; reflexivity|exact H]|]. destruct (IH I) as (y & Hy & Ht). exists y. split; [right; exact Hy|exact Ht]. }
  destruct X as (x & Hx & Ht). unfold credential_occs in Hx. apply filter_In in Hx as [Hx _]. exists x. split; [exact Hx|]. inversion Ht; subst. auto.
Qed.
Lemma says_line args occs free tin tout terr : parse_options args = Ok (mkMatches occs free) ->
  says (shown sha512 lib occs free) (parse_command_line sha512 files args tin tout terr).
Proof.
  intros P. assert (PN : forall x, In x (prompts None) -> shown sha512 lib occs free x).
  { intros x Hx. unfold prompts, password_messages in Hx. cbn [In] in Hx. destruct Hx as [<-|[<-|[<-|[<-|[<-|[]]]]]]; constructor. }
  assert (TK : forall ts, extract_tokens (mkMatches occs free) = Ok ts -> Forall (token_ok (shown sha512 lib occs free)) ts).
  { intros ts E. apply Forall_forall. intros t Ht. destruct t; cbn [token_ok]; auto.
    pose proof (names_given _ _ _ _ P E _ Ht) as G. intros x Hx. unfold prompts, password_messages in Hx. cbn [In] in Hx.
    destruct Hx as [<-|[<-|[<-|[<-|[<-|[]]]]]]; try constructor.
    change (lit "Enter password" ++ (lit " (" ++ name ++ lit ")") ++ lit ": ") with (lit "Enter password (" ++ (name ++ lit ")") ++ lit ": "). rewrite <- app_assoc. apply sh_named, G. }
  unfold parse_command_line. apply says_bind; [apply says_lift, options_error|]. intros m (u & u' & E). injection E as E _. rewrite P in E. injection E as <-.
  apply says_bind; [apply says_ensure; simple_error|]. intros _ _. apply says_bind.
  { intros v r v' [= <- <-]. split; [apply shows_same; reflexivity|discriminate]. } intros _ _. cbv zeta.
  destruct (if _ : bool then MHelp else get_mode _) as [d| | |]; [| |apply says_ret|apply says_ret].
  - apply says_bind; [apply says_lift, streams_error|]. intros streams _. apply says_bind.
    { intros v r v' H. unfold check_and_adjust_ui_verbosity in H. cbv zeta in H. destruct (_ && _ && _); [injection H as <- <-; split; [apply shows_same; reflexivity|intros e [= <-]; simple_error]|].
      destruct (_ && _ && _); [injection H as <- <-; split; [apply shows_same; reflexivity|intros e [= <-]; simple_error]|].
      destruct (_ =? 0)%Z; injection H as <- <-; (split; [apply shows_same; reflexivity|discriminate]). }
    intros _ _. apply says_bind.
    { destruct (opt_present _ OKeepInputs), (opt_present _ ODiscardInputs); try apply says_ret. apply says_lift. intros e [= <-]. simple_error. }
    intros policy _. apply says_bind; [|intros; apply says_ret]. destruct d.
    + apply says_bind; [apply says_encrypt; assumption|intros; apply says_ret].
    + apply says_bind; [apply says_decrypt; assumption|intros; apply says_ret].
  - apply says_bind; [apply says_lift, get_keypair_error|]. intros ks _. apply says_ret.
Qed.

Lemma Forall2_in_r {A B} (R : A -> B -> Prop) l l' : Forall2 R l l' -> forall y, In y l' -> exists x, In x l /\ R x y.
Proof. induction 1 as [|x y l l' H F IH]; intros z I; [destruct I|]. destruct I as [<-|I]; [exists x; cbn; auto|]. destruct (IH z I) as (x' & Ix & Hx). exists x'. cbn. auto. Qed.
Lemma Forall2_same_length {A B} (R : A -> B -> Prop) l l' : Forall2 R l l' -> length l = length l'.
Proof. induction 1; cbn; congruence. Qed.
Lemma tells_command args occs free tin tout terr u c u' : parse_options args = Ok (mkMatches occs free) ->
  parse_command_line sha512 files args tin tout terr u = (Ok c, u') -> tells (shown sha512 lib occs free) (run_command entry_of lib sha512 c).
Proof.
  intros P H. destruct c as [streams policy force d|ks force| |]; cbn [run_command]; try apply tells_text.
  - apply command_line_inv in H as (m & Pm & _ & H). rewrite P in Pm. injection Pm as <-.
    destruct (H _ _ _ _ eq_refl) as (d0 & u1 & u2 & _ & _ & Hs & _). pose proof (sources_ok _ _ _ _ _ Hs) as Src. pose proof (stream_output_error _ _ _ _ Hs) as Se. rewrite Forall_forall in Se.
    assert (X : forall k s, nth_error streams k = Some s -> stream_ok (shown sha512 lib occs free) k (length streams) s).
    { intros k s I. split; [|apply Se, (nth_error_In _ _ I)]. unfold file_header. eapply sh_streams; [exact Src|exact I| |apply dec_spec|apply dec_spec]. destruct (s_output s); eauto. }
    apply tells_crypt; try exact X; try constructor; auto.
  - destruct (line_command _ _ _ _ _ _ _ _ _ H) as (m & Pm & _ & _ & _ & Hk). rewrite P in Pm. injection Pm as <-. destruct (Hk _ _ eq_refl) as [Hg _]. clear Hk.
    unfold get_keypair_streams, bind, ensure in Hg. cbn [m_free] in Hg. assert (K : keypair_streams false free = Ok ks) by (destruct free; [discriminate Hg|exact Hg]).
    apply keypairs_ok in K as [F _]. apply tells_generate; [intros e He; apply sh_error, He|apply sh_blank| | |].
    + intros cs seed L. apply sh_public, L.
    + intros i L. unfold keypair_header. rewrite <- (Forall2_same_length _ _ _ F) in L |- *. apply sh_pair; [exists i; split; [exact L|apply dec_spec]|apply dec_spec].
    + apply Forall_forall. intros k I. destruct (Forall2_in_r _ _ _ F _ I) as (a & Ia & Ka). split; [intros p Hp; eapply sh_public_file; eassumption|eapply sh_private_file; eassumption].
Qed.

Theorem main_shows args tin tout terr w status w' : main entry_of lib sha512 files args tin tout terr w status w' ->
  exists tr, u_trace (w_ui w') = u_trace (w_ui w) ++ tr /\ echo_at_end true tr = true /\ typed_unseen tr /\
    forall m, In m (printed tr) ->
      (exists e, m = MError e /\ harmless e) \/ exists occs free, means 0 args occs free /\ shown sha512 lib occs free m.
Proof.
  intros (r & w1 & H & Hm). destruct (parse_options args) as [[occs free]|e|] eqn:P.
  - set (S := shown sha512 lib occs free).
    assert (T : tells S (let! c := io_ui (parse_command_line sha512 files args tin tout terr) in run_command entry_of lib sha512 c)).
    { apply tells_bind; [apply tells_ui, says_line, P|]. intros c (v & v' & E & _). symmetry in E.
      destruct (parse_command_line sha512 files args tin tout terr (w_ui v)) as [r0 u0] eqn:E0. cbn [fst] in E. subst r0. eapply tells_command; eassumption. }
    destruct (T _ _ _ H) as [S1 He]. assert (X : shows S (w_ui w) (w_ui w')).
    { destruct r as [a|e|]; [destruct Hm as [_ ->]; exact S1| |destruct Hm as [_ ->]; exact S1].
      assert (Y : forall e', harmless e' -> shows S (w_ui w) (w_ui (set_ui w1 (snd (print_error e' (w_ui w1)))))).
      { intros e' He'. eapply shows_trans; [exact S1|]. cbn [w_ui set_ui]. destruct (print_error e' (w_ui w1)) as [r2 u2] eqn:E2. cbn [snd].
        apply (says_error S e' (sh_error _ _ _ _ _ He') _ _ _ E2). }
      specialize (He e eq_refl). destruct e; destruct Hm as [_ ->]; try exact S1; apply Y, He. }
    destruct X as (tr & A & B & C & D). exists tr. split; [exact A|]. split; [exact B|]. split; [exact C|]. intros m Hm'. right. exists occs, free.
    split; [|apply D, Hm']. apply options_read in P as [P _]. exact P.
  - set (S := fun m => exists e, m = MError e /\ harmless e).
    assert (He : harmless e) by (eapply options_error, P).
    destruct H as [(c & w2 & [E _] & _)|[(e' & [E ->] & ->)|[[E _] _]]].
    + exfalso. unfold parse_command_line, bind_act, lift in E. rewrite P in E. discriminate E.
    + assert (E' : parse_command_line sha512 files args tin tout terr (w_ui w) = (Err e, w_ui w)) by (unfold parse_command_line, bind_act, lift; rewrite P; reflexivity).
      rewrite E' in *. cbn [fst snd] in *. injection E as ->.
      assert (X : shows S (w_ui w) (w_ui w')).
      { assert (Y : shows S (w_ui w) (w_ui (set_ui (set_ui w (w_ui w)) (snd (print_error e (w_ui w)))))).
        { cbn [w_ui set_ui]. destruct (print_error e (w_ui w)) as [r2 u2] eqn:E2. cbn [snd]. apply (says_error S e (ex_intro _ e (conj eq_refl He)) _ _ _ E2). }
        destruct e; destruct Hm as [_ ->]; try exact Y. apply shows_same. reflexivity. }
      destruct X as (tr & A & B & C & D). exists tr. split; [exact A|]. split; [exact B|]. split; [exact C|]. intros m Hm'. left. apply D, Hm'.
    + exfalso. unfold parse_command_line, bind_act, lift in E. rewrite P in E. discriminate E.
  - exfalso. revert P. unfold parse_options, bind. destruct (parse_args 0 args) as [[occs free]|e1|] eqn:E; [|discriminate|].
    + unfold ensure. destruct (forallb _ _); discriminate.
    + destruct (read_or_wrong (length args) 0 args (le_n _)) as [(os & f & R)|(e2 & G)]; [rewrite (reads_parse _ _ _ _ R) in E|rewrite (goes_wrong_parse _ _ G) in E]; discriminate E.
Qed.
End WithProgram.

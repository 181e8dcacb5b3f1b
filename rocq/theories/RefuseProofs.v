(** Proofs about refusals of command lines (C34, C69): where the errors come from. *)
From Coq.Strings Require Import Byte String.
From Coq Require Import List NArith ZArith Bool PeanoNat Lia.
From Verif Require Import Base Io Text Util CliErrors Getopts Crypto HeaderCrypto KeyFiles Ui CliCreds CliSpec Paths Cli PathSpec PathProofs.
Import ListNotations.
Local Open Scope N_scope.

(** The errors about terminals, files and the options for originals and verbosity; all others. *)
Definition special (e : cerr) : Prop :=
  match e with
  | CReadFromTerminal | CWriteToTerminal | CVerbosity | CKeepAndDiscard | CSingleInput | CDash | CNoKeyFile | CTwoKeysToStdout => True
  | _ => False
  end.
Definition other (e : cerr) : Prop := ~ special e.
Definition calm {A} (x : outcome cerr A) : Prop := forall e, x = Err e -> other e.
Definition calm_act {A} (m : act A) : Prop := forall u, calm (fst (m u)).

Lemma calm_ok {A} (a : A) : calm (Ok a). Proof. intros e [=]. Qed.
Lemma calm_panic {A} : calm (@Panic cerr A). Proof. intros e [=]. Qed.
Lemma calm_err {A} e : other e -> calm (@Err cerr A e). Proof. intros O f [= <-]. exact O. Qed.
Lemma calm_bind {A B} (x : outcome cerr A) (f : A -> outcome cerr B) : calm x -> (forall a, calm (f a)) -> calm (bind x f).
Proof. intros X F e. destruct x as [a|e'|]; cbn; [apply F| |intros [=]]. intros [= <-]. apply X. reflexivity. Qed.
Lemma calm_ensure c e : other e -> calm (ensure c e).
Proof. intros O f. destruct c; intros [=]. subst f. exact O. Qed.
Lemma calm_assert c : calm (@assert cerr c). Proof. intros f. destruct c; intros [=]. Qed.
Lemma calm_map_out {A B} (f : A -> outcome cerr B) l : (forall a, calm (f a)) -> calm (map_out f l).
Proof.
  intros F. induction l as [|a l IH]; [apply calm_ok|]. cbn [map_out].
  apply calm_bind; [apply F|intros b]. apply calm_bind; [exact IH|intros bs]. apply calm_ok.
Qed.

Lemma calm_ret {A} (a : A) : calm_act (ret a). Proof. intros u. apply calm_ok. Qed.
Lemma calm_lift {A} (x : outcome cerr A) : calm x -> calm_act (lift x). Proof. intros X u. exact X. Qed.
Lemma calm_bind_act {A B} (m : act A) (f : A -> act B) : calm_act m -> (forall a, calm_act (f a)) -> calm_act (bind_act m f).
Proof.
  intros M F u. unfold bind_act. specialize (M u). destruct (m u) as [[a|e|] u1]; cbn [fst] in *; [apply F| |apply calm_panic].
  apply calm_err. apply M. reflexivity.
Qed.

Ltac other := exact (fun x => x).
Ltac calm_step :=
  match goal with
  | |- calm (Ok _) => apply calm_ok
  | |- calm Panic => apply calm_panic
  | |- calm (Err _) => apply calm_err; other
  | |- calm (ensure _ _) => apply calm_ensure; other
  | |- calm (assert _) => apply calm_assert
  | |- calm (bind _ _) => apply calm_bind; [|intros ?]
  | |- calm (map_out _ _) => apply calm_map_out; intros ?
  | |- calm_act (ret _) => apply calm_ret
  | |- calm_act (lift _) => apply calm_lift
  | |- calm_act (ensure_act _ _) => apply calm_lift
  | |- calm_act (bind_act _ _) => apply calm_bind_act; [|intros ?]
  | |- calm (match ?x with _ => _ end) => destruct x
  | |- calm_act (match ?x with _ => _ end) => destruct x
  end.
Ltac calm := repeat calm_step.

(** ** Parsing *)

Lemma calm_cluster pos cs : calm (cluster pos cs).
Proof. induction cs as [|c cs IH]; cbn [cluster]; calm. exact IH. Qed.

Lemma calm_parse_args n : forall pos args, (length args <= n)%nat -> calm (parse_args pos args).
Proof.
  induction n as [|n IH]; intros pos [|cur args] L; cbn [length] in L; [apply calm_ok|lia|apply calm_ok|].
  assert (A : calm (parse_args (S pos) args)) by (apply IH; lia).
  assert (B : forall v rest, args = v :: rest -> calm (parse_args (S pos) rest)) by (intros v rest ->; cbn [length] in L; apply IH; lia).
  cbn [parse_args].
  repeat first [exact A | (eapply B; reflexivity) | apply calm_cluster | calm_step].
Qed.
Lemma calm_parse_options args : calm (parse_options args).
Proof. unfold parse_options. calm. exact (calm_parse_args _ _ _ (le_n _)). Qed.

Lemma calm_parse_digits t : forall acc, calm (parse_digits acc t).
Proof. induction t as [|c t IH]; intros acc; cbn [parse_digits]; cbv zeta; calm. apply IH. Qed.
Lemma calm_parse_usize t : calm (parse_usize t).
Proof. unfold parse_usize. cbv zeta. destruct (match t with 43 :: t' => t' | _ => t end); [calm|apply calm_parse_digits]. Qed.
Lemma calm_extract_tokens m : calm (extract_tokens m).
Proof. unfold extract_tokens. cbv zeta. calm. apply calm_parse_usize. Qed.

(** The names of the outputs are not looked at before the conversion. *)
Lemma streams_refused m d force e : get_input_output_streams m d force = Err e ->
  (e = CSingleInput /\ opt_present m OStream = true /\ (2 <= length (m_free m))%nat) \/
  (e = CDash /\ opt_present m OStream = false /\ m_free m <> [[45]] /\ exists a, In a (m_free m) /\ trim a = [45]).
Proof.
  unfold get_input_output_streams. cbv zeta. intros H. destruct (opt_present m OStream) eqn:Es; cbn [orb] in H.
  - destruct (m_free m) as [|a [|b l]]; try discriminate H. injection H as <-. left. split; [reflexivity|]. split; [reflexivity|]. cbn [length]. lia.
  - right. assert (K : forall l, bind (ensure (negb (existsb (fun a => text_eqb (trim a) dash) l)) CDash)
        (fun _ => Ok (map (fun a => let p := components a in mkStream (IFile p)
          (let* q := match d with Encrypt => add_extension p (get_encrypted_file_extension m) force | Decrypt => remove_extension p (get_encrypted_file_extension m) end in Ok (OFile q))) l)) = Err e ->
        e = CDash /\ exists a, In a l /\ trim a = [45]).
    { intros l. destruct (existsb _ l) eqn:E; [|discriminate]. intros [= <-]. split; [reflexivity|]. apply existsb_exists in E as (a & I & E). exists a. split; [exact I|]. exact (proj1 (text_eqb_eq _ _) E). }
    destruct (m_free m) as [|a [|b l]]; [discriminate H| |].
    + destruct (text_eqb a dash) eqn:Ea; [discriminate H|]. destruct (K [a] H) as [-> X]. split; [reflexivity|]. split; [reflexivity|]. split; [|exact X].
      intros [= ->]. discriminate Ea.
    + destruct (K _ H) as [-> X]. split; [reflexivity|]. split; [reflexivity|]. split; [discriminate|exact X].
Qed.
Lemma keypairs_refused l : forall b e, keypair_streams b l = Err e ->
  e = CTwoKeysToStdout /\ (2 <= (if b then 1 else 0) + count_occ (list_eq_dec N.eq_dec) l [45%N])%nat.
Proof.
  induction l as [|a l IH]; intros b e H; cbn [keypair_streams] in H; [discriminate H|]. cbv zeta in H. destruct (text_eqb a dash) eqn:Ea.
  - apply text_eqb_eq in Ea as ->. destruct b; cbn [negb ensure bind] in H.
    + injection H as <-. split; [reflexivity|]. cbn [count_occ]. destruct (list_eq_dec N.eq_dec dash [45]) as [_|X]; [lia|destruct (X eq_refl)].
    + destruct (keypair_streams true l) eqn:E; try discriminate H. injection H as <-. destruct (IH _ _ E) as [-> L]. split; [reflexivity|].
      cbn [count_occ]. destruct (list_eq_dec N.eq_dec dash [45]) as [_|X]; [lia|destruct (X eq_refl)].
  - destruct (keypair_streams b l) eqn:E; try discriminate H. injection H as <-. destruct (IH _ _ E) as [-> L]. split; [reflexivity|].
    cbn [count_occ]. destruct (list_eq_dec N.eq_dec a [45]) as [->|_]; [discriminate Ea|exact L].
Qed.
Lemma keypairs_all_refused m e : get_keypair_streams m = Err e ->
  (e = CNoKeyFile /\ m_free m = []) \/ (e = CTwoKeysToStdout /\ (2 <= count_occ (list_eq_dec N.eq_dec) (m_free m) [45%N])%nat).
Proof.
  unfold get_keypair_streams. destruct (m_free m) as [|a l]; cbn [ensure bind]; intros H; [left; injection H as <-; auto|right]. exact (keypairs_refused (a :: l) false e H).
Qed.

(** ** Keys *)

Lemma calm_map_err {E A} (g : E -> cerr) (x : outcome E A) : (forall e, other (g e)) -> calm (map_err g x).
Proof. intros G. destruct x; cbn [map_err]; [apply calm_ok|apply calm_err, G|apply calm_panic]. Qed.
Lemma calm_hex sha512 t b : calm (try_parse_hex sha512 t b).
Proof. apply calm_map_err. intros e. other. Qed.
Lemma calm_hex32 sha512 t b : calm (from_hex32 sha512 t b).
Proof. unfold from_hex32. calm. apply calm_hex. Qed.
Lemma calm_split t : forall n, calm (split_at_byte n t).
Proof. induction t as [|c t IH]; intros n; cbn [split_at_byte]; cbv zeta; calm. apply IH. Qed.
Lemma calm_hex64 sha512 t b : calm (from_hex64_private_key sha512 t b).
Proof. unfold from_hex64_private_key. cbv zeta. repeat first [apply calm_hex | apply calm_split | calm_step]. Qed.
Lemma calm_lines {A} c (f : text -> outcome cerr A) : (forall t, calm (f t)) -> calm (read_file_lines c f).
Proof. intros F. unfold read_file_lines. repeat first [apply F | calm_step]. Qed.

(** ** Prompts *)

Lemma calm_emit m : calm_act (emit m).
Proof. intros u. unfold emit. destruct (u_room u) as [[|n]|]; cbn [fst]; calm. Qed.
Lemma calm_interactive t : calm_act (println_interactive t).
Proof. intros u. unfold println_interactive. destruct (will_print u _); [apply calm_emit|apply calm_ok]. Qed.
Lemma next_byte_calm s r s' : next_byte s = (Some r, s') -> calm r.
Proof. induction s as [|[[|b d]| |] s IH]; cbn [next_byte]; intros H; try discriminate H; try (injection H as <- _; calm). exact (IH H). Qed.
Lemma calm_chars fuel : forall s cb res, calm (fst (read_chars fuel s cb res)).
Proof.
  induction fuel as [|fuel IH]; intros s cb res; cbn [read_chars]; [apply calm_panic|].
  destruct (next_byte s) as [[[b|e|]|] s'] eqn:E; cbn [fst]; [|apply calm_err; exact (next_byte_calm _ _ _ E e eq_refl)|apply calm_panic|calm]. cbv zeta.
  destruct (from_utf8 (cb ++ [b])) as [v| |]; [destruct (text_eqb v [10]); [apply calm_ok|apply IH]|apply IH|cbn [fst]; calm].
Qed.
Lemma calm_prompt t : calm_act (read_prompt t).
Proof.
  intros u. unfold read_prompt. destruct (negb (can_read u)); [cbn [fst]; calm|]. revert u. apply calm_bind_act; [apply calm_emit|intros _ u].
  destruct (u_input u) as [s|]; [|apply calm_panic]. pose proof (calm_chars (S (source_size s)) s [] []) as C.
  destruct (read_chars _ s [] []) as [r s']. exact C.
Qed.
Lemma calm_password t : calm_act (read_password t).
Proof.
  intros u. unfold read_password. destruct (negb (can_read u)); [cbn [fst]; calm|]. revert u. apply calm_bind_act; [intros u; apply calm_ok|intros _ u].
  pose proof (calm_prompt t u) as C. destruct (read_prompt t u) as [r u1]. cbn [fst] in C. revert u1.
  apply calm_bind_act; [intros u1; apply calm_ok|intros _]. apply calm_bind_act; [apply calm_interactive|intros _]. apply calm_lift. exact C.
Qed.
Lemma calm_password_loop fuel d t : calm_act (password_loop fuel d t).
Proof.
  induction fuel as [|fuel IH]; cbn [password_loop]; [calm|].
  repeat first [exact IH | apply calm_password | apply calm_interactive | calm_step].
Qed.
Lemma calm_interactively d n : calm_act (read_password_interactively d n).
Proof. intros u. unfold read_password_interactively. destruct (negb (can_read u)); [cbn [fst]; calm|apply calm_password_loop]. Qed.

(** ** Credentials *)

Section WithEnvironment.
Variable sha512 : bytes -> bytes.
Variable files : text -> option bytes.

Lemma calm_token d b t : calm_act (read_token sha512 files d b t).
Proof.
  destruct t; cbn [read_token];
    repeat first [apply calm_interactively | (apply calm_lines; intros ?) | apply calm_hex32 | apply calm_hex64 | calm_step
                 | progress unfold password_line, symmetric_key_line, public_key_line, private_key_line].
Qed.
Lemma calm_finish level b st : calm (finish_group level b st).
Proof. unfold finish_group. cbv zeta. calm. Qed.
Lemma calm_add st cs : calm_act (add_creds st cs).
Proof. unfold add_creds. calm. Qed.
Lemma calm_loop fuel d b : forall level st tokens, calm_act (parse_loop sha512 files fuel d b level st tokens).
Proof.
  induction fuel as [|fuel IH]; intros level st [|t tokens]; cbn [parse_loop]; try solve [calm]; [calm; apply calm_finish|].
  apply calm_bind_act; [calm|intros _]. apply calm_bind_act; [calm|intros _].
  destruct t; repeat first [apply IH | apply calm_token | apply calm_add | apply calm_finish | calm_step].
Qed.
Lemma calm_complex d b ts : calm_act (parse_complex_credential sha512 files d b ts).
Proof. unfold parse_complex_credential. repeat first [apply calm_loop | calm_step]. Qed.
Lemma calm_encrypt m b : calm_act (get_encrypt_credential sha512 files m b).
Proof. unfold get_encrypt_credential. repeat first [apply calm_extract_tokens | apply calm_complex | calm_step]. Qed.
Lemma calm_decrypt m b : calm_act (get_decrypt_credentials sha512 files m b).
Proof. unfold get_decrypt_credentials. repeat first [apply calm_extract_tokens | apply calm_complex | calm_step]. Qed.

Lemma bind_err {A B} (m : act A) (f : A -> act B) u e u' : bind_act m f u = (Err e, u') ->
  (exists u1, m u = (Err e, u1)) \/ (exists a u1, m u = (Ok a, u1) /\ f a u1 = (Err e, u')).
Proof. unfold bind_act. destruct (m u) as [[a|e'|] u1] eqn:E; intros H; [eauto|injection H as <- _; eauto|discriminate H]. Qed.
Lemma calm_no {A} (m : act A) u e u' : calm_act m -> m u = (Err e, u') -> ~ other e -> False.
Proof. intros C H N. apply N. apply (C u). rewrite H. reflexivity. Qed.

(** Where the refusals come from. *)
Definition reason (args : list text) (tin tout terr : bool) (m : opt_matches) (e : cerr) : Prop :=
  (e = CVerbosity /\ ((opt_count m OQuiet + 2 < opt_count m OVerbose)%N \/ (opt_count m OVerbose + 2 < opt_count m OQuiet)%N)) \/
  (exists d, get_mode m = MCrypt d /\
    (get_input_output_streams m d (opt_present m OForce) = Err e \/
     (exists streams v u1 u2, get_input_output_streams m d (opt_present m OForce) = Ok streams /\
        check_and_adjust_ui_verbosity v streams d (opt_present m OForce) tin tout terr u1 = (Err e, u2)) \/
     (e = CKeepAndDiscard /\ opt_present m OKeepInputs = true /\ opt_present m ODiscardInputs = true))) \/
  (get_mode m = MGenerateKeypair /\ get_keypair_streams m = Err e).
Lemma reasons args tin tout terr u e u' :
  parse_command_line sha512 files args tin tout terr u = (Err e, u') -> special e ->
  exists m, parse_options args = Ok m /\ reason args tin tout terr m e.
Proof.
  intros H Sp. assert (N : ~ other e) by (intros X; exact (X Sp)). unfold parse_command_line in H.
  apply bind_err in H as [(? & H)|(m & u1 & Hm & H)]; [destruct (calm_no _ _ _ _ (calm_lift _ (calm_parse_options _)) H N)|]. injection Hm as Hm _.
  exists m. split; [exact Hm|]. unfold reason.
  cbv zeta in H. apply bind_err in H as [(? & H)|(? & ? & _ & H)].
  { left. unfold ensure_act, lift, ensure in H. destruct (_ && _) eqn:E in H; [discriminate H|]. injection H as <- _. split; [reflexivity|].
    apply andb_false_iff in E as [E|E]; apply Z.leb_gt in E; lia. }
  right. apply bind_err in H as [(? & H)|(? & u2 & _ & H)]; [discriminate H|].
  destruct (match args with [] => true | _ => false end && tout) eqn:Ea; [discriminate H|].
  destruct (get_mode m) as [d| | |] eqn:Em; try discriminate H.
  - left. exists d. split; [reflexivity|]. apply bind_err in H as [(? & H)|(ss & u3 & Hs & H)]; [left; injection H as H _; exact H|]. injection Hs as Hs _. right.
    apply bind_err in H as [(u4 & H)|(? & u4 & _ & H)]; [left; eauto 8|]. right.
    apply bind_err in H as [(u5 & H)|(? & u5 & _ & H)].
    + destruct (opt_present m OKeepInputs), (opt_present m ODiscardInputs); try discriminate H. injection H as <- _. auto.
    + exfalso. refine (calm_no _ _ _ _ _ H N). repeat first [apply calm_encrypt | apply calm_decrypt | calm_step].
  - right. split; [reflexivity|]. apply bind_err in H as [(? & H)|(? & ? & _ & H)]; [|discriminate H]. injection H as H _. exact H.
Qed.

Lemma check_refused v streams d force tin tout terr u e u' : check_and_adjust_ui_verbosity v streams d force tin tout terr u = (Err e, u') ->
  e = CReadFromTerminal \/ e = CWriteToTerminal.
Proof.
  unfold check_and_adjust_ui_verbosity. cbv zeta. destruct (tin && _ && _); [intros [= <- _]; auto|]. destruct (tout && _ && _); [intros [= <- _]; auto|].
  destruct (v =? 0)%Z; discriminate.
Qed.
Lemma refused args tin tout terr u e u' :
  parse_command_line sha512 files args tin tout terr u = (Err e, u') -> e = CReadFromTerminal \/ e = CWriteToTerminal ->
  exists m d streams v u1 u2, parse_options args = Ok m /\ get_mode m = MCrypt d /\
    get_input_output_streams m d (opt_present m OForce) = Ok streams /\
    check_and_adjust_ui_verbosity v streams d (opt_present m OForce) tin tout terr u1 = (Err e, u2).
Proof.
  intros H Ee. destruct (reasons _ _ _ _ _ _ _ H) as (m & Hm & [(-> & _)|[(d & Hd & [K|[(ss & v & u1 & u2 & K1 & K2)|(-> & _)]])|(_ & K)]]).
  - destruct Ee as [-> | ->]; exact I.
  - destruct Ee as [X|X]; discriminate X.
  - destruct (streams_refused _ _ _ _ K) as [(-> & _)|(-> & _)]; destruct Ee as [X|X]; discriminate X.
  - exists m, d, ss, v, u1, u2. auto.
  - destruct Ee as [X|X]; discriminate X.
  - destruct (keypairs_all_refused _ _ K) as [(-> & _)|(-> & _)]; destruct Ee as [X|X]; discriminate X.
Qed.

End WithEnvironment.

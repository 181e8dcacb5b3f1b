(** Proofs about what appears on the terminal (C70). *)
From Coq.Strings Require Import Byte String.
From Coq Require Import List NArith ZArith Bool Permutation Lia.
From Verif Require Import Base BaseFacts Text Util CliErrors Getopts Crypto HeaderCrypto KeyFiles Io FileCrypto Ui UiSpec UiProofs2 CliCreds CliSpec CliProofs CliProofs3 Paths Cli Fs Commands PathSpec PathProofs OptSpec OptProofs CmdProofs CmdSpec ShowSpec.
Import ListNotations.
Local Open Scope N_scope.

Section WithMessages.
Variable S : message -> Prop.

Definition shows (u u' : ui) : Prop :=
  exists tr, u_trace u' = u_trace u ++ tr /\ echo_at_end true tr = true /\ typed_unseen tr /\ forall m, In m (printed tr) -> S m.
Lemma shows_same u u' : u_trace u' = u_trace u -> shows u u'.
Proof.
  intros E. exists []. rewrite app_nil_r. split; [exact E|]. split; [reflexivity|]. split; [|intros m []].
  intros before line after H. destruct before; discriminate H.
Qed.
Lemma unseen_app a b : echo_at_end true a = true -> typed_unseen a -> typed_unseen b -> typed_unseen (a ++ b).
Proof.
  intros Ea Ha Hb x line y H. destruct (app_eq_app _ _ _ _ H) as (l & [[E1 E2]|[E1 E2]]).
  - destruct l as [|e l].
    + rewrite app_nil_r in E1. subst x. cbn in E2. symmetry in E2. destruct (Hb [] line y E2) as [X|(b' & X)]; [discriminate X|destruct b'; discriminate X].
    + injection E2 as <- _. apply (Ha x line l E1).
  - subst x. destruct (Hb l line y E2) as [X|(b' & ->)]; [left; rewrite echo_app, Ea; exact X|right; exists (a ++ b'); apply app_assoc].
Qed.
Lemma shows_trans u v w : shows u v -> shows v w -> shows u w.
Proof.
  intros (t1 & E1 & H1 & U1 & P1) (t2 & E2 & H2 & U2 & P2). exists (t1 ++ t2). split; [rewrite E2, E1; apply eq_sym, app_assoc|].
  split; [rewrite echo_app, H1; exact H2|]. split; [apply unseen_app; assumption|].
  intros m. rewrite printed_app. intros H. apply in_app_or in H as [H|H]; auto.
Qed.
Lemma shows_one u u' m : u_trace u' = u_trace u ++ [Printed m] -> S m -> shows u u'.
Proof.
  intros E H. exists [Printed m]. split; [exact E|]. split; [reflexivity|]. split; [|intros x [<-|[]]; exact H].
  intros [|e [|e' x]] line y X; discriminate X.
Qed.
Lemma shows_discreet al u u' : discreet al u u' -> (forall m, In m al -> S m) -> shows u u'.
Proof.
  intros (tr & E & H & X & P) A. exists tr. split; [exact E|]. split; [exact X|]. split; [|intros m Hm; apply A, P, Hm].
  intros x line y ->. left. apply hidden_app in H as [_ [H _]]. exact H.
Qed.

(** Computations that show only that, and whose errors are harmless. *)
Definition says {A} (m : act A) : Prop := forall u r u', m u = (r, u') -> shows u u' /\ forall e, r = Err e -> harmless e.
Definition tells {A} (m : io A) : Prop := forall w r w', m w r w' -> shows (w_ui w) (w_ui w') /\ forall e, r = Err e -> harmless e.

Lemma harmless_simple e : (forall h, e <> CHex h) -> harmless e.
Proof. intros H ch ->. destruct (H _ eq_refl). Qed.
Ltac simple_error := apply harmless_simple; discriminate.
Ltac same := apply shows_same; reflexivity.

Lemma says_lift {A} (x : outcome cerr A) : (forall e, x = Err e -> harmless e) -> says (lift x).
Proof. intros H u r u' [= <- <-]. split; [same|exact H]. Qed.
Lemma says_ret {A} (a : A) : says (ret a).
Proof. apply says_lift. discriminate. Qed.
Lemma says_bind {A B} (m : act A) (f : A -> act B) : says m -> (forall a, (exists u u', m u = (Ok a, u')) -> says (f a)) -> says (bind_act m f).
Proof.
  intros Hm Hf u r u' H. unfold bind_act in H. destruct (m u) as [[a|e|] u1] eqn:E.
  - destruct (Hm _ _ _ E) as [S1 _]. destruct (Hf a (ex_intro _ _ (ex_intro _ _ E)) _ _ _ H) as [S2 He]. split; [eapply shows_trans; eassumption|exact He].
  - injection H as <- <-. destruct (Hm _ _ _ E) as [S1 He]. split; [exact S1|]. intros e' [= <-]. apply He. reflexivity.
  - injection H as <- <-. destruct (Hm _ _ _ E) as [S1 _]. split; [exact S1|discriminate].
Qed.
Lemma says_ignore {A} (m : act A) : says m -> says (ignore m).
Proof. intros Hm u r u' H. unfold ignore in H. destruct (m u) as [[a|e|] u1] eqn:E; injection H as <- <-; (split; [apply (Hm _ _ _ E)|discriminate]). Qed.
Lemma says_emit m : S m -> says (emit m).
Proof.
  intros HS u r u' H. unfold emit in H. destruct (u_room u) as [[|n]|]; injection H as <- <-.
  - split; [same|]. intros e [= <-]. simple_error.
  - split; [eapply shows_one; [reflexivity|exact HS]|discriminate].
  - split; [eapply shows_one; [reflexivity|exact HS]|discriminate].
Qed.
Lemma says_if {A} (c : ui -> bool) (m m' : act A) : says m -> says m' -> says (fun u => if c u then m u else m' u).
Proof. intros H H' u r u' E. destruct (c u); eauto. Qed.
Lemma says_println v t : S (MLine t) -> says (ui_println v t).
Proof. intros H. exact (says_if (fun u => will_print u v) _ _ (says_emit _ H) (says_ret tt)). Qed.
Lemma says_interactive t : S (MLine t) -> says (println_interactive t).
Proof. intros H. exact (says_if (fun u => will_print u _) _ _ (says_emit _ H) (says_ret tt)). Qed.
Lemma says_error e : S (MError e) -> says (print_error e).
Proof. intros H. exact (says_if (fun u => will_print u _) _ _ (says_emit _ H) (says_ret tt)). Qed.
Lemma says_ensure c e : harmless e -> says (ensure_act c e).
Proof. intros H. apply says_lift. unfold ensure. destruct c; [discriminate|]. intros e' [= <-]. exact H. Qed.

Lemma next_byte_error s e s' : next_byte s = (Some (Err e), s') -> e = CIo.
Proof. induction s as [|[[|b d]| |] s IH]; cbn; intros H; try discriminate H; first [now injection H as <- _|auto]. Qed.
Lemma read_chars_error fuel : forall s cb res e s', read_chars fuel s cb res = (Err e, s') -> harmless e.
Proof.
  induction fuel as [|fuel IH]; intros s cb res e s' H; [discriminate H|]. cbn [read_chars] in H.
  destruct (next_byte s) as [[[b|e1|]|] s1] eqn:E; try discriminate H.
  - destruct (from_utf8 _); [destruct (text_eqb _ _); [discriminate H|eauto]|eauto|injection H as <- _; simple_error].
  - injection H as <- _. apply next_byte_error in E as ->. simple_error.
  - injection H as <- _. simple_error.
Qed.
Lemma read_prompt_error p u e u' : read_prompt p u = (Err e, u') -> harmless e.
Proof.
  unfold read_prompt. destruct (negb _); [intros [= <- _]; simple_error|]. unfold bind_act, emit.
  destruct (u_room u) as [[|n]|].
  - intros [= <- _]. simple_error.
  - cbn [u_input log]. destruct (u_input u); [|discriminate]. destruct (read_chars _ _ _ _) as [[t|e1|] s'] eqn:E; intros H; try discriminate H.
    injection H as <- _. eapply read_chars_error, E.
  - cbn [u_input log]. destruct (u_input u); [|discriminate]. destruct (read_chars _ _ _ _) as [[t|e1|] s'] eqn:E; intros H; try discriminate H.
    injection H as <- _. eapply read_chars_error, E.
Qed.
Lemma read_password_error p u e u' : read_password p u = (Err e, u') -> harmless e.
Proof.
  unfold read_password. destruct (negb _); [intros [= <- _]; simple_error|]. cbv beta delta [bind_act set_stdin_echo lift]. cbv beta iota.
  destruct (read_prompt p (log u (Echo false))) as [r u1] eqn:E. destruct (println_interactive [] _) as [r2 u2] eqn:P. intros H.
  apply println_interactive_cases in P as [(-> & _)|(-> & _)]; [|injection H as <- _; simple_error].
  injection H as -> _. eapply read_prompt_error, E.
Qed.
Lemma password_loop_error d msg fuel : forall u e u', password_loop fuel d msg u = (Err e, u') -> harmless e.
Proof.
  assert (P : forall t u e u', println_interactive t u = (Err e, u') -> harmless e).
  { intros t u e u' H. apply println_interactive_cases in H as [(X & _)|(X & _)]; [discriminate X|]. injection X as ->. simple_error. }
  induction fuel as [|fuel IH]; intros u e u' H; [discriminate H|]. cbn [password_loop] in H. unfold bind_act at 1 in H.
  destruct (read_password msg u) as [[pw|e1|] u1] eqn:E; [| |discriminate H].
  2:{ injection H as <- _. eapply read_password_error, E. }
  destruct (text_eqb pw []).
  { unfold bind_act in H. destruct (println_interactive _ u1) as [[[]|e1|] u2] eqn:E1; [eapply IH, H|injection H as <- _; eapply P, E1|discriminate H]. }
  unfold bind_act at 1 in H. match type of H with context [(if is_encrypt d then ?a else ?b) u1] => destruct ((if is_encrypt d then a else b) u1) as [[b0|e1|] u2] eqn:E1 end; [| |discriminate H].
  2:{ injection H as <- _. destruct (is_encrypt d); [|discriminate E1]. unfold bind_act in E1.
      destruct (read_password (lit "Confirm password: ") u1) as [[pw'|e2|] u3] eqn:E2; try discriminate E1. injection E1 as <- _. eapply read_password_error, E2. }
  destruct b0; unfold bind_act in H; (destruct (println_interactive _ u2) as [[[]|e1|] u3] eqn:E3; [|injection H as <- _; eapply P, E3|discriminate H]); [discriminate H|eapply IH, H].
Qed.

(** ** Keys *)
Lemma hex_digits_value ch : In ch (lit "0123456789abcdefABCDEF") -> hex_value ch <> None.
Proof.
  intros H. assert (E : forallb (fun c => match hex_value c with Some _ => true | None => false end) (lit "0123456789abcdefABCDEF") = true) by (vm_compute; reflexivity).
  rewrite forallb_forall in E. apply E in H. destruct (hex_value ch); [discriminate|discriminate H].
Qed.
Lemma parse_hex_char t : forall acc cnt ch, parse_hex_loop t acc cnt = Err (InvalidChar ch) -> ~ In ch (lit "0123456789abcdefABCDEF").
Proof.
  induction t as [|c t IH]; intros acc cnt ch H; cbn [parse_hex_loop] in H; [destruct (0 <? cnt); discriminate H|].
  destruct (_ && _); [eapply IH, H|]. destruct (hex_value c) eqn:E.
  - destruct (_ =? 2); [|eapply IH, H]. unfold bind in H. destruct (parse_hex_loop t 0 0) eqn:E1; try discriminate H. injection H as ->. eapply IH, E1.
  - injection H as <-. intros X. destruct (hex_digits_value c X E).
Qed.
Variable sha512 : bytes -> bytes.
Lemma try_parse_hex_harmless t sk e : try_parse_hex sha512 t sk = Err e -> harmless e.
Proof.
  unfold try_parse_hex, map_err. intros H ch ->. destruct sk.
  - unfold try_parse_hex_string in H. destruct (parse_hex_loop t 0 0) eqn:E; try discriminate H. injection H as ->. eapply parse_hex_char, E.
  - unfold try_parse_hex_string_checksummed, try_parse_hex_string, bind in H. destruct (parse_hex_loop t 0 0) eqn:E; try discriminate H.
    + destruct (text_eqb _ _); discriminate H.
    + injection H as ->. eapply parse_hex_char, E.
Qed.
Lemma from_hex32_harmless t sk e : from_hex32 sha512 t sk = Err e -> harmless e.
Proof.
  unfold from_hex32, bind. destruct (try_parse_hex sha512 t sk) eqn:E; [destruct (_ =? 32); [discriminate|intros [= <-]; simple_error]| |discriminate].
  intros [= <-]. eapply try_parse_hex_harmless, E.
Qed.
Lemma split_no_error n t (e : cerr) : split_at_byte n t <> Err e.
Proof.
  revert n. induction t as [|c t IH]; intros n; cbn [split_at_byte]; destruct (n =? 0); try discriminate.
  destruct (n <? _); [discriminate|]. unfold bind. destruct (split_at_byte _ t) as [[a b]|e'|] eqn:E; try discriminate. intros [= ->]. exact (IH _ E).
Qed.
Lemma from_hex64_harmless t sk e : from_hex64_private_key sha512 t sk = Err e -> harmless e.
Proof.
  unfold from_hex64_private_key. cbv zeta. unfold bind at 1, ensure. destruct (_ =? 128); [|intros [= <-]; simple_error].
  unfold bind at 1. destruct (split_at_byte 64 _) as [[a b]|e1|] eqn:E; [|exfalso; eapply split_no_error, E|discriminate].
  unfold bind at 1. destruct (try_parse_hex sha512 a sk) as [a'|e1|] eqn:Ea; [|intros [= <-]; eapply try_parse_hex_harmless, Ea|discriminate].
  unfold bind at 1. destruct (try_parse_hex sha512 b sk) as [b'|e1|] eqn:Eb; [|intros [= <-]; eapply try_parse_hex_harmless, Eb|discriminate].
  unfold assert, bind. destruct (_ =? 32); [|discriminate]. destruct (_ =? 32); discriminate.
Qed.
Lemma map_out_error {A B} (f : A -> outcome cerr B) l e : map_out f l = Err e -> exists x, f x = Err e.
Proof.
  induction l as [|x l IH]; cbn [map_out]; [discriminate|]. unfold bind. destruct (f x) eqn:E; [|intros [= <-]; eauto|discriminate].
  destruct (map_out f l); [discriminate|intros [= <-]; auto|discriminate].
Qed.
Lemma file_lines_harmless {A} content (f : text -> outcome cerr A) e : (forall t e', f t = Err e' -> harmless e') ->
  read_file_lines content f = Err e -> harmless e.
Proof.
  intros Hf. unfold read_file_lines. unfold bind at 1. destruct (match content with Some _ => _ | None => _ end) as [s|e1|] eqn:E; [| |discriminate].
  2:{ intros [= <-]. destruct content as [cb|]; [destruct (from_utf8 cb)|]; try discriminate E; injection E as <-; simple_error. }
  unfold bind at 1. destruct (map_out f _) as [cs|e1|] eqn:E1; [| |discriminate].
  - unfold bind, ensure. destruct cs; [intros [= <-]; simple_error|discriminate].
  - intros [= <-]. apply map_out_error in E1 as (x & E1). eapply Hf, E1.
Qed.
Lemma key_line_harmless {A B} (x : outcome cerr A) (g : A -> outcome cerr B) e : (forall a, exists b, g a = Ok b) -> (forall e', x = Err e' -> harmless e') ->
  (let* k := x in g k) = Err e -> harmless e.
Proof. intros G H. unfold bind. destruct x as [a|e'|]; [destruct (G a) as [b ->]; discriminate|intros [= <-]; auto|discriminate]. Qed.

(** ** The credentials *)
Variable files : text -> option bytes.
Definition prompts (name : option text) : list message :=
  password_messages (lit "Enter password" ++ match name with Some n => lit " (" ++ n ++ lit ")" | None => [] end ++ lit ": ").
Lemma says_password d name : (forall m, In m (prompts name) -> S m) -> says (read_password_interactively d name).
Proof.
  intros H u r u' E. unfold read_password_interactively in E. destruct (negb (can_read u)); [injection E as <- <-; split; [same|intros e [= <-]; simple_error]|].
  split; [|intros e ->; eapply password_loop_error, E]. apply password_loop_cases in E as (D & _). eapply shows_discreet; [exact D|exact H].
Qed.
Definition token_ok (t : token) : Prop :=
  match t with
  | InteractivePassword => forall m, In m (prompts None) -> S m
  | NamedInteractivePassword n => forall m, In m (prompts (Some n)) -> S m
  | _ => True
  end.
Lemma says_token d sk t : token_ok t -> says (read_token sha512 files d sk t).
Proof.
  assert (K32 : forall sk (g : bytes -> cred) l e', (let* k := from_hex32 sha512 l sk in Ok (g k)) = Err e' -> harmless e').
  { intros s g l e'. apply key_line_harmless; [eauto|]. intros e''. apply from_hex32_harmless. }
  destruct t; cbn [token_ok read_token]; intros H; try (apply says_lift; discriminate).
  - apply says_bind; [apply says_password, H|intros; apply says_ret].
  - apply says_bind; [apply says_password, H|intros; apply says_ret].
  - apply says_lift. intros e. apply file_lines_harmless. discriminate.
  - apply says_lift. intros e. apply file_lines_harmless. intros t e'. apply (K32 true SymmetricKey).
  - apply says_bind; [apply says_ensure; simple_error|]. intros _ _. apply says_lift. intros e. apply file_lines_harmless. intros t e'. apply (K32 sk PublicKey).
  - apply says_bind; [apply says_ensure; simple_error|]. intros _ _. apply says_bind; [|intros; apply says_ret]. apply says_lift. intros e. apply (K32 sk PublicKey).
  - apply says_bind; [apply says_ensure; simple_error|]. intros _ _. apply says_lift. intros e. apply file_lines_harmless.
    intros t e'. unfold private_key_line. apply key_line_harmless; [eauto|]. intros e''. apply from_hex64_harmless.
Qed.
Lemma says_add st creds : says (add_creds st creds).
Proof. apply says_bind; [apply says_ensure; simple_error|intros; apply says_ret]. Qed.
Lemma finish_harmless level b st e : finish_group level b st = Err e -> harmless e.
Proof.
  unfold finish_group, bind, ensure. repeat (destruct (negb _) || destruct (_ <? _) || destruct (_ <=? _)); try discriminate; intros [= <-]; simple_error.
Qed.
Lemma says_parse d sk fuel : forall level st ts, Forall token_ok ts ->
  says (parse_loop sha512 files fuel d sk level st ts) /\
  forall u c rest u', parse_loop sha512 files fuel d sk level st ts u = (Ok (c, rest), u') -> Forall token_ok rest.
Proof.
  induction fuel as [|fuel IH]; intros level st ts F; cbn [parse_loop]; [split; [apply says_lift; discriminate|discriminate]|].
  destruct ts as [|t ts].
  { split; [|intros u c rest u' H; apply CliProofs.bind_ok in H as (? & ? & _ & H); injection H as _ <- _; constructor].
    apply says_bind; [apply says_lift; intros e; apply finish_harmless|intros; apply says_ret]. }
  inversion F as [|t' ts' Ht Fts]; subst.
  assert (G : forall body : act (cred * list token), says body -> (forall u c rest u', body u = (Ok (c, rest), u') -> Forall token_ok rest) ->
    says (let+ _ := ensure_act (is_encrypt d || decrypt_allowed t) CCombinatorOnDecrypt in
          let+ _ := ensure_act ((p_next_key_shares st =? 1) || key_shares_allowed t) CSharesNotFollowedByKey in body) /\
    forall u c rest u', (let+ _ := ensure_act (is_encrypt d || decrypt_allowed t) CCombinatorOnDecrypt in
          let+ _ := ensure_act ((p_next_key_shares st =? 1) || key_shares_allowed t) CSharesNotFollowedByKey in body) u = (Ok (c, rest), u') -> Forall token_ok rest).
  { intros body Hb Hr. split.
    - apply says_bind; [apply says_ensure; simple_error|]. intros _ _. apply says_bind; [apply says_ensure; simple_error|]. intros _ _. exact Hb.
    - intros u c rest u' H. apply CliProofs.bind_ok in H as (? & ? & _ & H). apply CliProofs.bind_ok in H as (? & ? & _ & H). eapply Hr, H. }
  assert (K : says (let+ creds := read_token sha512 files d sk t in let+ st0 := add_creds st creds in parse_loop sha512 files fuel d sk level st0 ts) /\
    forall u c rest u', (let+ creds := read_token sha512 files d sk t in let+ st0 := add_creds st creds in parse_loop sha512 files fuel d sk level st0 ts) u = (Ok (c, rest), u') -> Forall token_ok rest).
  { split.
    - apply says_bind; [apply says_token, Ht|]. intros cr _. apply says_bind; [apply says_add|]. intros st0 _. apply IH, Fts.
    - intros u c rest u' H. apply CliProofs.bind_ok in H as (? & ? & _ & H). apply CliProofs.bind_ok in H as (? & ? & _ & H). eapply IH; [exact Fts|exact H]. }
  destruct K as [K1 K2].
  destruct t; try (apply G; [exact K1|exact K2]); apply G.
  - apply says_bind; [apply says_ensure; simple_error|]. intros _ _. apply IH, Fts.
  - intros u c rest u' H. apply CliProofs.bind_ok in H as (? & ? & _ & H). eapply IH; [exact Fts|exact H].
  - apply says_bind; [apply says_ensure; simple_error|]. intros _ _. apply IH, Fts.
  - intros u c rest u' H. apply CliProofs.bind_ok in H as (? & ? & _ & H). eapply IH; [exact Fts|exact H].
  - apply says_bind; [apply says_ensure; simple_error|]. intros _ _. apply IH, Fts.
  - intros u c rest u' H. apply CliProofs.bind_ok in H as (? & ? & _ & H). eapply IH; [exact Fts|exact H].
  - apply says_bind; [apply IH, Fts|]. intros [c rest] (u & u' & E). assert (Fr : Forall token_ok rest) by (eapply IH; [exact Fts|exact E]).
    apply says_bind; [apply says_add|]. intros st0 _. apply IH, Fr.
  - intros u c rest u' H. apply CliProofs.bind_ok in H as ([c1 rest1] & ? & E & H). assert (Fr : Forall token_ok rest1) by (eapply IH; [exact Fts|exact E]).
    apply CliProofs.bind_ok in H as (? & ? & _ & H). eapply IH; [exact Fr|exact H].
  - apply says_bind; [apply says_lift; intros e; apply finish_harmless|intros; apply says_ret].
  - intros u c rest u' H. apply CliProofs.bind_ok in H as (? & ? & _ & H). injection H as _ <- _. exact Fts.
Qed.
Lemma says_complex d sk ts : Forall token_ok ts -> says (parse_complex_credential sha512 files d sk ts).
Proof. intros F. apply says_bind; [apply says_parse, F|]. intros [c rest] _. apply says_ret. Qed.
Lemma parse_usize_error t e : parse_usize t = Err e -> e = CParseInt.
Proof.
  unfold parse_usize. generalize 0. destruct (match t with 43 :: t' => t' | _ => t end) as [|c l]; [congruence|]. generalize (c :: l). clear.
  intros l. induction l as [|c l IH]; intros acc H; cbn [parse_digits] in H; [discriminate H|]. destruct (_ && _); [|congruence]. destruct (_ <? _); [eauto|congruence].
Qed.
Lemma extract_error m e : extract_tokens m = Err e -> harmless e.
Proof.
  unfold extract_tokens. unfold bind at 1. destruct (map_out _ tokens_with_int_value) as [x|e1|] eqn:E; [| |discriminate].
  - destruct (_ && _); [intros [= <-]; simple_error|discriminate].
  - intros [= <-]. apply map_out_error in E as ([o cr] & E). apply map_out_error in E as ([pos v] & E). unfold bind in E.
    destruct (parse_usize v) eqn:P; try discriminate E. injection E as <-. apply parse_usize_error in P as ->. simple_error.
Qed.
Lemma says_default ts : (forall m, In m (prompts None) -> S m) -> Forall token_ok ts -> Forall token_ok (default_tokens ts).
Proof. intros H F. destruct ts; [constructor; [exact H|constructor]|exact F]. Qed.
Lemma says_encrypt m force : (forall x, In x (prompts None) -> S x) -> (forall ts, extract_tokens m = Ok ts -> Forall token_ok ts) ->
  says (get_encrypt_credential sha512 files m force).
Proof.
  intros H T. apply says_bind; [apply says_lift, extract_error|]. intros ts (u & u' & E). injection E as E _. apply says_complex, says_default; [exact H|apply T, E].
Qed.
Lemma says_decrypt m force : (forall x, In x (prompts None) -> S x) -> (forall ts, extract_tokens m = Ok ts -> Forall token_ok ts) ->
  says (get_decrypt_credentials sha512 files m force).
Proof.
  intros H T. apply says_bind; [apply says_lift, extract_error|]. intros ts (u & u' & E). injection E as E _.
  apply says_bind; [apply says_complex, says_default; [exact H|apply T, E]|]. intros c _. destruct c; try (apply says_lift; discriminate).
  assert (A : forall b e, assert b = Err e -> harmless e) by (intros []; discriminate).
  apply says_bind; [apply says_lift; intros e; apply A|]. intros _ _. apply says_bind; [apply says_lift; intros e; apply A|]. intros _ _. apply says_lift.
  intros e M. apply map_out_error in M as ([n c] & M). unfold bind, assert in M. destruct (_ =? 1); discriminate M.
Qed.
End WithMessages.

(** Proofs that stream mode works if nothing stands in the way. *)
From Coq.Strings Require Import Byte String.
From Coq Require Import List NArith ZArith Bool PeanoNat Lia.
From Verif Require Import Base BaseFacts Shamir Errors Io HeaderIoSpec StreamSpec Text Util CliErrors Crypto HeaderCrypto CredSpec FileCrypto Progress Ui UiSpec UiProofs Paths Cli Fs Commands FsSpec FsProofs ConvProofs FsProofs2 FsProofs4 FsProofs8 FsProofs11 FsProofs15.
Import ListNotations.
Local Open Scope N_scope.

Section Sound.
Variable entry_of : names.
Variable lib : crypto_lib.
Hypothesis sound : faulty entry_of = false.
Hypothesis fast : stalls entry_of = false.

Definition surely {A} (P : world -> Prop) (m : io A) (Q : A -> world -> Prop) : Prop := forall w r w', P w -> m w r w' -> exists a, r = Ok a /\ Q a w'.
Lemma surely_bind {A B} P Q R (m : io A) (f : A -> io B) : surely P m Q -> (forall a, surely (Q a) (f a) R) -> surely P (io_bind m f) R.
Proof.
  intros M F w r w' Pw [(a & w1 & H1 & H2)|[(e & H & _)|(H & _)]].
  - destruct (M _ _ _ Pw H1) as (x & [= <-] & Qw). exact (F a _ _ _ Qw H2).
  - destruct (M _ _ _ Pw H) as (x & E & _). discriminate E.
  - destruct (M _ _ _ Pw H) as (x & E & _). discriminate E.
Qed.
Lemma surely_try {A} P Q (m : io A) : surely P m Q -> surely P (io_try m) (fun x w => exists a, x = Ok a /\ Q a w).
Proof.
  intros M w r w' Pw [(x & _ & H & ->)|(H & _)]; destruct (M _ _ _ Pw H) as (a & E & Qw); [subst x; exists (Ok a); eauto|discriminate E].
Qed.
Lemma surely_ret {A} (P : world -> Prop) (a : A) : surely P (io_ret a) (fun x w => x = a /\ P w).
Proof. intros w r w' Pw [-> ->]. eauto. Qed.
Lemma surely_lift {A} (P : world -> Prop) (a : A) x : x = Ok a -> surely P (io_lift x) (fun y w => y = a /\ P w).
Proof. intros -> w r w' Pw [-> ->]. eauto. Qed.

(** The stream [i] is still unread. *)
Definition before (i : input_stream) (b : bytes) (w : world) : Prop := works (w_ui w) /\ readable entry_of (w_fs w) (w_ui w) i b.
(** The reader delivers [b]. *)
Definition opened (rd : reader) (b : bytes) (w : world) : Prop := works (w_ui w) /\
  match rd with
  | ReadNode j => exists n, f_nodes (w_fs w) j = Some n /\ n_regular n = true /\ n_content n = b
  | ReadDir => False
  | ReadStdin src => ends_in_error src = false /\ flat src = b
  end.
Lemma before_ui i b w u : before i b w -> works u -> u_input u = u_input (w_ui w) -> before i b (set_ui w u).
Proof. intros [_ R] W E. split; [exact W|]. destruct i; cbn [readable set_ui w_fs w_ui] in *; rewrite ?E; exact R. Qed.
Lemma ignored_println t u : works u -> fst (ignore (ui_println 0 t) u) = Ok tt /\ works (snd (ignore (ui_println 0 t) u)) /\ u_input (snd (ignore (ui_println 0 t) u)) = u_input u.
Proof. intros W. unfold ignore, ui_println, emit. rewrite W. destruct (will_print u 0); (split; [reflexivity|split; [exact W|reflexivity]]). Qed.

Lemma open_surely i b : (forall p, i <> IFile p) -> surely (before i b) (open_input entry_of i false) (fun rd w => opened rd b w).
Proof.
  intros Ni w r w' [W R] H. destruct i as [p|p|]; [destruct (Ni p eq_refl)| |].
  - destruct R as (s & t & j & n & Es & Et & Ej & En & Rg & Ec).
    assert (A : forall r1 w1, open_read entry_of p w r1 w1 -> r1 = Ok (ReadNode j) /\ w1 = w).
    { intros r1 w1 [-> [[_ X]|(s' & t' & E1 & E2 & K)]]; [exfalso; revert X; apply no_fail; eauto 8|]. assert (s' = s) by congruence. subst s'.
      assert (t' = t) by congruence. subst t'. destruct K as [(j' & Ej' & ->)|(Ed & _)]; [|congruence]. split; [congruence|reflexivity]. }
    assert (M : exists md, metadata_of (w_fs w) s = Some md /\ m_type md <> FDirectory).
    { unfold metadata_of. unfold max_links in Et. cbn [follow] in Et. destruct (f_entries (w_fs w) s) as [[j'|l|]|] eqn:E'.
      - injection Et as <-. rewrite E' in Ej. injection Ej as ->. rewrite En. destruct (n_regular n); eexists; (split; [reflexivity|discriminate]).
      - eexists. split; [reflexivity|discriminate].
      - injection Et as <-. congruence.
      - injection Et as <-. congruence. }
    destruct M as (md & M & Nd).
    assert (B : forall r1 w1, symlink_metadata entry_of p w r1 w1 -> r1 = Ok md /\ w1 = w).
    { intros r1 w1 [-> [[_ X]|(s' & md' & E1 & E2 & ->)]]; [exfalso; revert X; apply no_fail; eauto|]. assert (s' = s) by congruence. subst s'. split; congruence. }
    assert (F : forall r1 w1, open_file entry_of p w r1 w1 -> r1 = Ok (ReadNode j, md) /\ w1 = w).
    { intros r1 w1 F. unfold open_file in F. destruct F as [(x & w2 & H1 & F)|[(e & H1 & _)|(H1 & _)]]; apply A in H1 as [E1 ->]; try discriminate E1. injection E1 as ->.
      destruct F as [(y & w2 & H1 & F)|[(e & H1 & _)|(H1 & _)]]; apply B in H1 as [E1 ->]; try discriminate E1. injection E1 as ->.
      destruct (m_type md) eqn:Em; try contradiction; (destruct F as [(y & w2 & [_ ->] & [-> ->])|[(e & [X _] & _)|([X _] & _)]]; [auto|discriminate X..]). }
    cbn [open_input] in H. destruct H as [([rd md'] & w1 & H1 & H)|[(e & H1 & _)|(H1 & _)]]; destruct (F _ _ H1) as [E ->]; try discriminate E. injection E as -> ->.
    destruct H as [-> ->]. eexists. split; [reflexivity|]. split; [exact W|]. exists n. auto.
  - destruct R as (src & Es & Ee & Ef). cbn [open_input] in H. unfold open_stdin in H. rewrite Es in H. destruct H as [-> ->].
    eexists. split; [reflexivity|]. split; [exact W|]. split; assumption.
Qed.
Lemma convert_surely d rd b : convertible lib d b -> surely (opened rd b) (convert entry_of lib d rd WriteStdout) (fun _ w => works (w_ui w)).
Proof.
  intros Cv w r w' [W R] (er & src & room & fl & r0 & snk & k & Hr & Hk & Hp & Hc & K). destruct (Hk sound) as [-> ->].
  assert (E : ends_in_error src = false /\ flat src = b).
  { unfold provides in Hp. destruct rd as [j| |s]; [|destruct R|subst src; exact R]. destruct R as (n & En & Rg & Ec). rewrite En in Hp.
    specialize (Hp Rg ltac:(discriminate)). destruct (ends_in_error src); [destruct Hp as [X _]; congruence|]. split; congruence. }
  destruct E as [Ee Ef]. destruct K as [(-> & ->)|(_ & P & _)]; [|apply panics_stalls in P; congruence].
  rewrite (Cv er src r0 snk Hr Ee Ef Hc). exists tt. split; [reflexivity|]. cbn [set_ui w_ui write_out]. apply (tame_progress k _ W).
Qed.

Lemma stream_ready i b policy d w r w' : (forall p, i <> IFile p) ->
  crypt_streams entry_of lib [mkStream i (Ok OStdout)] policy false d w r w' -> works (w_ui w) -> readable entry_of (w_fs w) (w_ui w) i b -> convertible lib d b -> r = Ok tt.
Proof.
  intros Ni H W R Cv.
  assert (A : surely (before i b) (attempt entry_of lib 0 1 (mkStream i (Ok OStdout)) false d) (fun x w => exists cb, x = (Ok tt, cb) /\ works (w_ui w))).
  { unfold attempt. apply (surely_bind _ (fun x w => exists a : reader * writer * option path, x = Ok a /\ snd (fst a) = WriteStdout /\ opened (fst (fst a)) b w)).
    - apply (surely_try _ (fun a w => snd (fst a) = WriteStdout /\ opened (fst (fst a)) b w)). apply (surely_bind _ (fun _ w => before i b w)); [|intros u; eapply surely_bind; [apply (surely_lift _ OStdout); reflexivity|]].
      + intros w0 r0 w0' Pw [-> ->]. match goal with |- context [ignore (ui_println 0 ?t)] => destruct (ignored_println t _ (proj1 Pw)) as (E1 & E2 & E3) end.
        rewrite E1. exists tt. split; [reflexivity|]. exact (before_ui i b _ _ Pw E2 E3).
      + intros o. cbn beta. intros w0 r0 w0' [-> Pw]. revert w0 r0 w0' Pw. fold (surely (before i b) (let! rd := open_input entry_of i false in let! wr := open_output entry_of OStdout false in io_ret (rd, wr, output_cleanup OStdout))
          (fun x w => snd (fst x) = WriteStdout /\ opened (fst (fst x)) b w)).
        eapply surely_bind; [apply open_surely, Ni|]. intros rd. cbn beta. intros w0 r0 w0' Pw H0. destruct H0 as [(wr & w1 & [E ->] & [-> ->])|[(e & [E _] & _)|([E _] & _)]]; try discriminate E.
        injection E as ->. eexists. split; [reflexivity|]. split; [reflexivity|exact Pw].
    - intros x. cbn beta. intros w0 r0 w0' ([[rd wr] cb] & -> & Ew & Pw) H0. cbn [fst snd] in *. subst wr. revert w0 r0 w0' Pw H0. fold (surely (opened rd b) (let! r := io_try (convert entry_of lib d rd WriteStdout) in io_ret (r, cb)) (fun x w => exists cb, x = (Ok tt, cb) /\ works (w_ui w))).
      eapply surely_bind; [apply surely_try, (convert_surely d rd b Cv)|]. intros y w0 r0 w0' ([] & -> & Pw) [-> ->]. eauto. }
  assert (S : surely (before i b) (process entry_of lib 0 1 [mkStream i (Ok OStdout)] false d) (fun x w => x = ([], []))).
  { cbn [process]. eapply surely_bind; [eapply surely_bind; [exact A|]|].
    - intros [res cb]. cbn beta. intros w0 r0 w0' (cb' & [= -> ->] & Pw) [-> ->]. eexists. split; [reflexivity|].
      instantiate (1 := fun x w => x = ([], []) /\ works (w_ui w)). cbn [s_input]. split; [|exact Pw]. destruct i as [p| |]; [destruct (Ni p eq_refl)|reflexivity..].
    - intros [cbs errs]. cbn beta. intros w0 r0 w0' [E0 Pw] H0. injection E0 as -> ->. destruct (println_works [] _ Pw) as [E1 E2].
      destruct H0 as [(x & w1 & [_ _] & H1)|[(e & [E _] & _)|([E _] & _)]]; [|congruence..]. destruct H1 as [([c e] & w2 & [E ->] & [-> ->])|[(e & [E _] & _)|([E _] & _)]]; try discriminate E.
      injection E as -> ->. eexists. split; [reflexivity|reflexivity]. }
  destruct H as [([cbs errs] & w1 & H1 & H)|[(e & H1 & _)|(H1 & _)]]; destruct (S _ _ _ (conj W R) H1) as (x & E & Ex); try discriminate E. subst x. injection E as -> ->.
  destruct H as [(u & w2 & [_ ->] & [-> _])|[(e & [E _] & _)|([E _] & _)]]; [reflexivity|discriminate E..].
Qed.
End Sound.

(** Files shared between several keys, from command lines to files (C94). *)
From Coq.Strings Require Import Byte String.
From Coq Require Import List NArith ZArith Bool PeanoNat Lia.
From Verif Require Import Base BaseFacts Shamir Errors Io HeaderIo HeaderIoSpec StreamSpec Text Util CliErrors Getopts Crypto HeaderCrypto CredSpec FileCrypto KeyFiles Ui UiSpec Paths PathSpec PathProofs CliCreds Cli CliSpec CliProofs CliProofs2 CliProofs3 CliProofs4
  OptSpec OptProofs CmdSpec CmdProofs Progress Fs Commands FsSpec FsProofs12 FlowSpec FlowProofs PipeSpec PipeProofs PropCli PropCommandLine PropFs2 ShareSpec.
Import ListNotations.
Local Open Scope N_scope.

Section Tokens.
Variable sha512 : bytes -> bytes.
Variable files : text -> option bytes.

Lemma recipients_read t cs u : recipients sha512 files t cs -> read_token sha512 files Encrypt false t u = (Ok cs, u).
Proof.
  intros R. destruct R as [x b ps E F N|x cs E|x cs E|k c E]; cbn [read_token].
  - rewrite E, (password_file_run _ _ F N). reflexivity.
  - rewrite E. reflexivity.
  - unfold bind_act, ensure_act, lift. cbn. rewrite E. reflexivity.
  - unfold bind_act, ensure_act, lift. cbn. rewrite E. reflexivity.
Qed.

Scheme asks_for_mut := Induction for asks_for Sort Prop
  with members_ask_for_mut := Induction for members_ask_for Sort Prop.

Lemma asks_stand ex c : asks_for sha512 files ex c -> forall u, stands_for sha512 files false u ex u c.
Proof.
  intros H. induction H as [th m subs M IH N L B| |n t m cs subs R M IH|n e m c subs A IHA M IH] using asks_for_mut
    with (P0 := fun m subs _ => forall u, members_stand_for sha512 files false u m u subs); intros u.
  - constructor; auto.
  - constructor.
  - econstructor; [apply recipients_read, R|apply IH].
  - econstructor; [apply IHA|apply IH].
Qed.

Lemma holds_read ts cs : holds sha512 files ts cs -> forall u, reads sha512 files Decrypt false u ts u cs /\ Forall key_token ts.
Proof.
  intros H u. induction H as [|x b ps ts cs E F N H [R K]|x ks ts cs E H [R K]|x ks ts cs E H [R K]].
  - split; constructor.
  - split; [|constructor; [exact I|exact K]]. econstructor; [|exact R]. cbn [read_token]. rewrite E, (password_file_run _ _ F N). reflexivity.
  - split; [|constructor; [exact I|exact K]]. econstructor; [|exact R]. cbn [read_token]. rewrite E. reflexivity.
  - split; [|constructor; [exact I|exact K]]. econstructor; [|exact R]. cbn [read_token]. unfold bind_act, ensure_act, lift. cbn. rewrite E. reflexivity.
Qed.

(** ** One share each *)

Lemma total_ones (R : list cred) : total_shares (map (fun c => (1, c)) R) = lenN R.
Proof. induction R as [|p R IH]; [reflexivity|]. cbn [map total_shares fold_right fst]. fold (total_shares (map (fun c => (1, c)) R)). rewrite IH. unfold lenN. cbn [length]. lia. Qed.

Lemma row_asks ts R : all_recipients sha512 files ts R -> members_ask_for sha512 files (row ts) (map (fun c => (1, c)) R).
Proof. intros H. induction H as [|t ts cs cs' A H IH]; cbn [row map]; [constructor|]. rewrite map_app. constructor; assumption. Qed.

Lemma recipients_simple (u : ui) t cs : recipients sha512 files t cs -> Forall (fun c => forall s n k, c <> Complex s n k) cs.
Proof.
  intros R. apply (recipients_read _ _ u) in R. apply read_kinds in R.
  eapply Forall_impl; [|exact R]. intros c H s n k ->. exact H.
Qed.
Lemma all_simple (u : ui) ts R : all_recipients sha512 files ts R -> Forall (fun c => forall s n k, c <> Complex s n k) R.
Proof. intros H. induction H as [|t ts cs cs' A H IH]; [constructor|]. apply Forall_app. split; [exact (recipients_simple u _ _ A)|exact IH]. Qed.
End Tokens.

Lemma leaves_ones R n k : Forall (fun c => forall s n k, c <> Complex s n k) R -> leaves (Complex (map (fun c => (1, c)) R) n k) = R.
Proof.
  intros F. cbn [leaves]. induction F as [|c R Nc F IH]; [reflexivity|]. cbn [map concat snd]. rewrite IH.
  destruct c; try reflexivity. exfalso. exact (Nc _ _ _ eq_refl).
Qed.

Lemma sat_matched cs R D n k : Forall (fun c => forall s n k, c <> Complex s n k) R -> sat cs D (Complex (map (fun c => (1, c)) R) n k) <-> matched cs k R D.
Proof.
  intros Si. split.
  - intros H. inversion H as [? d _ M|subs n' t sel S F T]; subst; [destruct M|].
    assert (K : exists some, selection some R /\ sel = map (fun c => (1, c)) some).
    { clear - S. remember (map (fun c => (1, c)) R) as l. revert R Heql. induction S as [|a l k S IH|a l k S IH]; intros [|p R] E; try discriminate E.
      - exists []. split; [constructor|reflexivity].
      - injection E as -> E. destruct (IH _ E) as (some & S' & ->). exists (p :: some). split; [constructor; exact S'|reflexivity].
      - injection E as -> E. destruct (IH _ E) as (some & S' & ->). exists some. split; [constructor; exact S'|reflexivity]. }
    destruct K as (some & S' & ->). exists some. split; [exact S'|]. rewrite total_ones in T. split; [exact T|].
    assert (Sub : forall r, In r some -> In r R) by (clear - S'; induction S'; intros r I; [destruct I|destruct I as [->|I]; [left; reflexivity|right; auto]|right; auto]).
    intros r I. rewrite Forall_forall in F. specialize (F (1, r) (in_map (fun c => (1, c)) _ _ I)). cbn [snd] in F. inversion F as [? d Id M|s ? ? sel ? ? ? E]; subst; [eauto|].
    exfalso. rewrite Forall_forall in Si. exact (Si _ (Sub _ I) _ _ _ eq_refl).
  - intros (some & S & T & I). apply sat_group with (sel := map (fun c => (1, c)) some).
    + clear - S. induction S; cbn [map]; constructor; assumption.
    + apply Forall_forall. intros x J. apply in_map_iff in J as (p & <- & Ip). destruct (I p Ip) as (d & Id & M). apply sat_leaf with d; assumption.
    + rewrite total_ones. exact T.
Qed.

Section Runs.
Variable lib : crypto_lib.
Variable sha512 : bytes -> bytes.
Hypothesis Hl : lib_ok lib.

Lemma shared_files e1 args1 occs1 free1 v v' ts th mem c f b dir n :
  succeeds e1 lib sha512 args1 occs1 free1 v v' -> asks_to_encrypt occs1 ->
  says args1 ts -> ts <> [] -> spells true th mem ts -> asks_for sha512 (files_in e1 (w_fs v)) (Group th mem) c ->
  all_there e1 (w_fs v) free1 -> In f free1 -> f <> lit "-" -> plain e1 (w_fs v) f b -> is_file (components f) dir n -> ~ ends_in_dot n ->
  exists subs total k fast encrypted er ser cod chunk,
    c = Complex subs total k /\ (fast = true <-> given OFast occs1) /\
    content e1 (w_fs v') (dir ++ [Normal (n ++ lit ".rypt")]) = Some encrypted /\
    random_ok er /\ encrypt_header lib (mkEncryptOptions subs total k fast) er = Ok (ser, cod, chunk) /\ begins_with_header ser encrypted /\
    forall D, Forall (decryption_cred (co_cs cod)) D ->
      no_accident (co_cs cod) (fst (cs_keypair (co_cs cod) (er_seed er))) D (leaves c) (header_keys ser) ->
      (sat (co_cs cod) D c -> convertible lib (DoDecrypt D) encrypted) /\
      forall e2 args2 occs2 free2 x x' ts2 g,
        succeeds e2 lib sha512 args2 occs2 free2 x x' -> asks_to_decrypt occs2 ->
        says args2 ts2 -> ts2 <> [] -> holds sha512 (files_in e2 (w_fs x)) ts2 D -> lenN D < 2 ^ 64 ->
        all_there e2 (w_fs x) free2 -> In g free2 -> g <> lit "-" -> plain e2 (w_fs x) g encrypted ->
        sat (co_cs cod) D c /\
        exists dir' n', is_file (components g) dir' (n' ++ lit ".rypt") /\
          (n' <> lit "." -> n' <> lit ".." -> content e2 (w_fs x') (dir' ++ [Normal n']) = Some b).
Proof.
  intros Su As Sy Nt Sp Af At If Nf (s & Es & Pb) Fn Nd.
  destruct (succeeds_encrypt lib sha512 e1 _ _ _ _ _ _ Su As If) as (tin & tout & terr & streams & policy & c' & fast & u & u2 & Ep & Hc & Po & G & _ & Fa).
  destruct Su as (W & R & _ & No & Ns & _).
  pose proof (asks_stand _ _ _ _ Af u2) as St.
  assert (Dt : default_tokens ts = ts) by (destruct ts; [contradiction|reflexivity]).
  rewrite <- Dt in Sp. rewrite (C36_spelled_credentials_are_accepted sha512 _ _ _ _ _ _ _ _ _ _ Sy Po Sp St) in G. injection G as <- <-.
  pose proof (wf_of sha512 _ _ _ _ _ Sp _ _ _ _ St) as Wg.
  destruct (crypt_done lib sha512 Hl _ _ _ _ _ _ _ _ _ _ _ _ _ _ _ R W No At Ep Hc If Nf) as [Sep (q & I)].
  inversion Af as [th' m subs Ma Ne Lt Bo E1 E2]. subst th' m. 
  set (total := total_shares subs) in *. set (k := needed th total) in *. subst c.
  destruct (C57_decryption_restores_files e1 lib streams policy _ _ _ _ (set_ui v u2) _ Hl W Sep Wg Hc _ s q b I) as (t & c0 & er & ser & cod & chunk & Et & Pt & Hr & He & Hh & Z).
  { exists (components f). auto. } { exact Pb. }
  destruct (C69_encrypted_names _ _ _ _ _ _ _ _ _ _ _ _ _ _ _ _ _ _ _ R Ep I Fn Nd) as (sx & Sx & Fq). apply suffix_rypt in Sx; [|exact Ns]. subst sx.
  assert (Eq : q = dir ++ [Normal (n ++ lit ".rypt")]) by (apply Fq; [intros X; cbn in X; repeat (destruct X as [X|X]; [discriminate X|]); exact X|left; discriminate]).
  exists subs, total, k, fast, c0, er, ser, cod, chunk. split; [reflexivity|]. split; [exact Fa|].
  split; [rewrite <- Eq; exact (plain_content _ _ _ _ _ Et Pt)|]. do 3 (split; [assumption|]).
  intros D HD Na. destruct (Z D HD Na) as [Z1 Z2]. split; [exact Z1|].
  intros e2 args2 occs2 free2 x x' ts2 g Su2 As2 Sy2 Nt2 Ho Ld At2 Ig Ng (s' & Es' & Pc).
  destruct (succeeds_decrypt lib sha512 e2 _ _ _ _ _ _ Su2 As2 Ig) as (tin' & tout' & terr' & streams' & policy' & D' & u' & u2' & Ep' & Hc' & Po' & G' & _).
  destruct Su2 as (W' & R' & _ & No' & Ns' & _).
  destruct (holds_read _ _ _ _ Ho u2') as [Rd Kt].
  assert (Dt2 : default_tokens ts2 = ts2) by (destruct ts2; [contradiction|reflexivity]).
  rewrite <- Dt2 in Rd. rewrite (C37_flat_lists_are_accepted sha512 _ _ _ _ _ _ _ _ Sy2 Po' Kt Rd Ld) in G'. injection G' as <- <-.
  destruct (crypt_done lib sha512 Hl _ _ _ _ _ _ _ _ _ _ _ _ _ _ _ R' W' No' At2 Ep' Hc' Ig Ng) as [Sep' (q' & I')].
  destruct (C69_decrypted_names _ _ _ _ _ _ _ _ _ _ _ _ _ _ _ _ R' Ep' I') as (sx & dir' & n' & Sx & Fg & _ & _ & Fq'). apply suffix_rypt in Sx; [|exact Ns']. subst sx.
  destruct (Z2 e2 streams' policy' (set_ui x u2') x' W' Sep' Hc' _ s' q' I') as (Sa & t' & Et' & Pt').
  { exists (components g). auto. } { exact Pc. }
  split; [exact Sa|]. exists dir', n'. split; [exact Fg|]. intros N1 N2. specialize (Fq' N1 N2). unfold is_file in Fq'.
  rewrite <- Fq'. eapply plain_content; eassumption.
Qed.
End Runs.

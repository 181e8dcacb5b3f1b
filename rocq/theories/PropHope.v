(** C95: runs that cannot succeed do no harm, and say so.

    Vocabulary: [hopeless] contents have no conversion, [unopenable] ones have no header that the keys open, [untouched] and [nothing_new] are about the files (HopeSpec);
    otherwise as in PropFs, PropCommandLine and PropPipe. *)
From Coq.Strings Require Import Byte String.
From Coq Require Import List NArith ZArith Bool PeanoNat Lia.
From Verif Require Import Base BaseFacts Shamir Errors Io HeaderIo HeaderIoSpec HeaderIoProofs StreamSpec Text Util CliErrors Getopts CliCreds Crypto HeaderCrypto CredSpec FileCrypto
  KeyFiles Ui UiSpec Paths Cli CliProofs PathSpec PathProofs OptSpec OptProofs CmdSpec CmdProofs Fs Commands FsSpec FsProofs FsProofs2 FsProofs4 FsProofs5 FsProofs10 FsProofs12 FlowSpec FlowProofs PipeSpec PipeProofs2 HopeSpec HopeProofs MuteProofs HeaderCryptoProofs2 FileProofs
  PropFs PropFs2 PropCommandLine.
From Verif Require Import HeaderCryptoProofs4 HeaderPanics ConvProofs Proto ToyCrypto FsCases FsCases2.
Import ListNotations.
Local Open Scope N_scope.

(** ** What cannot be converted *)

(** Without support by the hardware nothing can be encrypted with --fast, and nothing that was encrypted with --fast
    elsewhere can be decrypted. *)
Theorem C95_fast_encryption_needs_hardware : forall lib c b,
  lib AES256GCM = None -> hopeless lib (DoEncrypt c true) b.
Proof. intros lib c b Na. apply dead_hopeless, fast_dead, Na. Qed.
Print Assumptions C95_fast_encryption_needs_hardware.
Theorem C95_fast_decryption_needs_hardware : forall lib lib' c b file D,
  lib_ok lib' -> wf_cred c -> is_conversion lib' (DoEncrypt c true) b file -> lib AES256GCM = None ->
  hopeless lib (DoDecrypt D) file.
Proof. exact fast_file_hopeless. Qed.
Print Assumptions C95_fast_decryption_needs_hardware.
(** Files that do not begin with a header cannot be decrypted. *)
Theorem C95_other_files : forall lib D b, (forall h, ~ begins_with_header h b) -> hopeless lib (DoDecrypt D) b.
Proof. exact no_header_hopeless. Qed.
Print Assumptions C95_other_files.
(** Encrypted files cannot be decrypted with keys that do not satisfy the expression they were encrypted for. *)
Theorem C95_wrong_keys : forall lib subs n t fast b file,
  lib_ok lib -> wf_cred (Complex subs n t) -> is_conversion lib (DoEncrypt (Complex subs n t) fast) b file ->
  exists er ser cod chunk, random_ok er /\ encrypt_header lib (mkEncryptOptions subs n t fast) er = Ok (ser, cod, chunk) /\ begins_with_header ser file /\
    forall D, Forall (decryption_cred (co_cs cod)) D ->
      no_accident (co_cs cod) (fst (cs_keypair (co_cs cod) (er_seed er))) D (leaves (Complex subs n t)) (header_keys ser) ->
      ~ sat (co_cs cod) D (Complex subs n t) -> hopeless lib (DoDecrypt D) file.
Proof.
  intros lib subs n t fast b file Hl Wc C. destruct (conversion_restored lib Hl subs n t fast b file Wc C) as (er & ser & cod & chunk & Hr & He & Hb & K).
  exists er, ser, cod, chunk. split; [exact Hr|]. split; [exact He|]. split; [exact Hb|]. intros D HD Ha Ns c' C'. destruct (K D HD Ha) as [_ K']. destruct (K' _ C') as [S _]. contradiction.
Qed.
Print Assumptions C95_wrong_keys.

(** ** What happens then *)

Lemma harmless entry_of lib streams policy d w r w' :
  lib_ok lib -> wf_fs (w_fs w) -> w_past w = [] -> file_to_file streams -> crypt_streams entry_of lib streams policy false d w r w' ->
  (forall b, hopeless lib d b) \/
  (forall st, In st streams -> exists p s b, s_input st = IFile p /\ entry_of p = Some s /\ plain_file (w_fs w) s b /\ hopeless lib d b) ->
  untouched w w' /\ (r <> Panic -> nothing_new w w').
Proof.
  intros Hl W Pw F H Hh.
  assert (U : forall f x b1 b2, plain_file f x b1 -> plain_file f x b2 -> b1 = b2).
  { intros f x b1 b2 (i & A & B) (j & A' & B'). assert (i = j) by congruence. subst j. congruence. }
  assert (Un : untouched w w').
  { intros g s Ig Ns. destruct (C28_existing_files_survive _ _ _ _ _ _ _ _ Hl W Pw F H g s Ig Ns) as [K|(_ & _ & st & q & b & f & I & (p & Ei & Ep & _) & Pb & _ & (t & c & _ & _ & Ic))]; [exact K|].
    exfalso. destruct Hh as [Hh|Hh]; [exact (Hh _ _ Ic)|]. destruct (Hh st I) as (p' & s' & b' & Ei' & Ep' & Pb' & Hb). assert (p' = p) by congruence. subst p'. assert (s' = s) by congruence. subst s'.
    rewrite (U _ _ _ _ Pb' Pb) in Hb. exact (Hb _ Ic). }
  split; [exact Un|]. intros Np t Ht. destruct (f_entries (w_fs w) t) as [x|] eqn:Et; [left; discriminate|right].
  destruct (in_dec N.eq_dec t (w_refused w')) as [I|Nr]; [exact I|exfalso].
  destruct (C29_failed_conversions_leave_nothing _ _ _ _ _ _ _ _ Hl W H Np t Ht Et Nr) as (st & q & b & I & _ & _ & (t' & c & _ & _ & Ic) & Hp).
  destruct Hh as [Hh|Hh]; [exact (Hh _ _ Ic)|]. destruct (Hh st I) as (p & s & b' & Ei & Ep & Pb' & Hb). destruct (Hp p Ei) as (s' & f & Es & If & Pb).
  assert (s' = s) by congruence. subst s'. assert (Ns : f_entries (w_fs w) s <> None) by (destruct Pb' as (i & A & _); congruence). destruct (Un f s If Ns) as [A B].
  assert (b = b'); [|subst b'; exact (Hb _ Ic)]. destruct Pb as (i & P1 & P2), Pb' as (j & P3 & P4). rewrite A in P1. assert (i = j) by congruence. subst j. rewrite (B i) in P2 by exact P3. congruence.
Qed.

(** A run that is to encrypt with --fast, without support by the hardware, fails whatever it is given, and writes nothing
    to standard output.  Without --force the files that were there are untouched, also those that were to be removed
    after encryption, and unless it crashed there are no others afterwards. *)
Theorem C95_fast_runs_without_hardware : forall (entry_of : names) lib sha512 files args occs free tin tout terr w status w',
  lib_ok lib -> lib AES256GCM = None -> wf_fs (w_fs w) -> w_past w = [] ->
  means 0 args occs free -> asks_to_encrypt occs -> given OFast occs ->
  main entry_of lib sha512 files args tin tout terr w status w' ->
  status <> 0 /\ w_stdout w' = w_stdout w /\
  (~ given OForce occs -> untouched w w' /\ (status <> 101 -> nothing_new w w')).
Proof.
  intros entry_of lib sha512 files args occs free tin tout terr w status w' Hl Na W Pw R As Fa H.
  assert (Q0 : same_files w w' -> untouched w w' /\ (status <> 101 -> nothing_new w w')).
  { intros Q. split.
    - intros g s Ig _. rewrite (moments_same _ _ Q) in Ig. unfold moments in Ig. rewrite Pw in Ig. destruct Ig as [<-|[]]. split; auto.
    - intros _ t Ht. left. rewrite <- (proj1 Q). exact Ht. }
  destruct (main_inv _ _ _ _ _ _ _ _ _ _ _ H) as (rc & u & Ep & [(N & Q & Z)|(c & r & w1 & -> & H1 & Q & Eo & _ & Es)]).
  { split; [exact Z|]. split; [|intros _; exact (Q0 Q)].
    destruct H as (r & w1 & H & K). clear Q0. destruct H as [(c & w2 & [Ec ->] & H)|[(e & [Ec ->] & ->)|([Ec ->] & ->)]]; rewrite Ep in Ec; cbn [fst snd] in Ec.
    - destruct (N c). symmetry. exact Ec.
    - destruct e; destruct K as [_ ->]; reflexivity.
    - destruct K as [_ ->]. reflexivity. }
  destruct (command_line_inv _ _ _ _ _ _ _ _ _ Ep) as (m & P & Pf & C). pose proof (means_is _ _ _ _ R P) as ->. rewrite (mode_encrypt _ _ As) in Pf.
  assert (Ea : match args with [] => true | _ => false end = false).
  { destruct args; [|reflexivity]. exfalso. cbn in P. injection P as <- <-. destruct Fa as (x & [] & _). }
  rewrite Ea in Pf. cbn [andb] in Pf. destruct c as [streams policy force d|ks force| |]; try (cbn in Pf; discriminate Pf); try (destruct Pf; fail).
  cbn [run_command] in H1. destruct (C _ _ _ _ eq_refl) as (dir & u1 & u2 & Ed & Ef & Hs & _ & D & _).
  destruct (C69_options_have_their_effect _ _ _ _ _ _ _ _ _ _ _ _ _ _ R Ep) as (Fo & _ & So & Fs).
  assert (exists cr, d = DoEncrypt cr true) as (cr & ->).
  { destruct dir; [destruct D as (cr & fast & -> & _)|]; [exists cr; f_equal; apply (Fs cr fast eq_refl), Fa|]. destruct D as (cs & -> & _). cbn in Pf. destruct Pf. }
  pose proof (fast_dead lib cr Na) as Hd.
  assert (Ns : streams <> []).
  { destruct So as [(_ & i & -> & _)|(Nt & _ & F2)]; [discriminate|]. intros ->. inversion F2. subst. apply Nt. right. left. reflexivity. }
  destruct (dead_crypt entry_of lib _ Hd _ _ _ _ _ _ H1 Ns) as [Nr So'].
  split; [rewrite Es; destruct r as [[]| |]; [contradiction Nr; reflexivity|discriminate..]|]. split; [rewrite Eo; exact So'|].
  intros Nf. destruct force; [destruct Nf; apply Fo; reflexivity|].
  destruct (crypt_options _ _ _ _ _ _ _ _ _ _ _ _ Ep) as (F & _).
  destruct (harmless entry_of lib streams policy _ (set_ui w u) r w1 Hl W Pw F H1 (or_introl (dead_hopeless _ _ Hd))) as [A B]. split.
  - intros g s Ig. rewrite (moments_same _ _ Q) in Ig. exact (A g s Ig).
  - intros N1 t. rewrite (proj1 Q). intros Ht. rewrite (proj2 (proj2 Q)). apply B; [|exact Ht]. intros ->. apply N1, Es.
Qed.
Print Assumptions C95_fast_runs_without_hardware.

(** A run without --force in which no file can be converted fails, the files are untouched, also those that were to be
    removed, and unless it crashed there are no others afterwards. *)
Theorem C95_hopeless_files : forall (entry_of : names) lib sha512 files args occs free tin tout terr w status w' streams policy force d u,
  lib_ok lib -> wf_fs (w_fs w) -> w_past w = [] ->
  means 0 args occs free -> ~ given OForce occs -> ~ to_stdout occs free ->
  parse_command_line sha512 files args tin tout terr (w_ui w) = (Ok (CryptStreams streams policy force d), u) ->
  (forall a, In a free -> exists s b, entry_of (components a) = Some s /\ plain_file (w_fs w) s b /\ hopeless lib d b) ->
  main entry_of lib sha512 files args tin tout terr w status w' ->
  status <> 0 /\ untouched w w' /\ (status <> 101 -> nothing_new w w').
Proof.
  intros entry_of lib sha512 files args occs free tin tout terr w status w' streams policy force d u Hl W Pw R Nf Nt Ep Hh H.
  destruct (main_inv _ _ _ _ _ _ _ _ _ _ _ H) as (rc & u' & Ep' & K). rewrite Ep in Ep'. injection Ep' as <- <-.
  destruct K as [(N & _)|(c & r & w1 & [= <-] & H1 & Q & _ & _ & Es)]; [destruct (N _ eq_refl)|]. cbn [run_command] in H1.
  destruct (C69_options_have_their_effect _ _ _ _ _ _ _ _ _ _ _ _ _ _ R Ep) as (Fo & _ & So & _). destruct force; [destruct Nf; apply Fo; reflexivity|].
  destruct So as [(T & _)|(_ & _ & F2)]; [contradiction|].
  assert (Hs : forall st, In st streams -> exists p s b, s_input st = IFile p /\ entry_of p = Some s /\ plain_file (w_fs w) s b /\ hopeless lib d b).
  { intros st I. clear - F2 Hh I. induction F2 as [|a s' l l' [Ei _] F2 IH]; [destruct I|]. destruct I as [->|I]; [|apply IH; [|exact I]; intros x Ix; apply Hh; right; exact Ix].
    destruct (Hh a (or_introl eq_refl)) as (s & b & A & B & C). exists (components a), s, b. auto. }
  destruct (crypt_options _ _ _ _ _ _ _ _ _ _ _ _ Ep) as (F & _).
  destruct (harmless entry_of lib streams policy _ (set_ui w u) r w1 Hl W Pw F H1 (or_intror Hs)) as [A B]. split; [|split].
  - intros E0. assert (r = Ok tt) as -> by (destruct r as [[]| |]; [reflexivity|rewrite Es in E0; discriminate E0..]).
    destruct free as [|a free]; [apply Nt; right; left; reflexivity|]. inversion F2 as [|a' st l l' [Ei Eo] F2' E1 E2]. subst.
    destruct (reported_success entry_of lib Hl _ _ _ _ _ H1 W st (or_introl eq_refl)) as [X|(q & t & b & f & _ & _ & _ & _ & (t' & c & _ & _ & Ic) & _ & Hp)].
    { destruct (Eo _ X) as (p & Y). discriminate Y. }
    destruct (Hs st (or_introl eq_refl)) as (p & s & b' & Ei' & Ep' & Pb' & Hb). destruct (Hp p Ei') as (s' & Es' & _ & Pb). assert (s' = s) by congruence. subst s'.
    assert (b = b'); [|subst b'; exact (Hb _ Ic)]. destruct Pb' as (i & P1 & P2). destruct Pb as (j & P3 & P4); [cbn [set_ui w_fs]; congruence|]. cbn [set_ui w_fs] in P3, P4. assert (i = j) by congruence. subst j. congruence.
  - intros g s Ig. rewrite (moments_same _ _ Q) in Ig. exact (A g s Ig).
  - intros N1 t. rewrite (proj1 Q). intros Ht. rewrite (proj2 (proj2 Q)). apply B; [|exact Ht]. intros ->. apply N1, Es.
Qed.
Print Assumptions C95_hopeless_files.

(** The same for one file among others: it is there with its content at every moment, whatever becomes of the others;
    it gets no output, unless the removal was refused or another stream has the same output; and the run fails. *)
Theorem C95_hopeless_file_among_others : forall (entry_of : names) lib sha512 files args occs free tin tout terr w status w' streams policy force d u s b,
  lib_ok lib -> wf_fs (w_fs w) -> w_past w = [] ->
  means 0 args occs free -> ~ given OForce occs ->
  parse_command_line sha512 files args tin tout terr (w_ui w) = (Ok (CryptStreams streams policy force d), u) ->
  plain_file (w_fs w) s b -> hopeless lib d b ->
  main entry_of lib sha512 files args tin tout terr w status w' ->
  (forall g, In g (moments w') -> plain_file g s b) /\
  (forall st q t, In st streams -> converts entry_of st s q -> entry_of q = Some t -> distinct_outputs entry_of streams -> status <> 101 ->
     f_entries (w_fs w') t <> None -> f_entries (w_fs w) t <> None \/ In t (w_refused w')) /\
  (forall st q, In st streams -> converts entry_of st s q -> status <> 0).
Proof.
  intros entry_of lib sha512 files args occs free tin tout terr w status w' streams policy force d u s b Hl W Pw R Nf Ep Pb Hb H.
  destruct (main_inv _ _ _ _ _ _ _ _ _ _ _ H) as (rc & u' & Ep' & K). rewrite Ep in Ep'. injection Ep' as <- <-.
  destruct K as [(N & _)|(c & r & w1 & [= <-] & H1 & Q & _ & _ & Es)]; [destruct (N _ eq_refl)|]. cbn [run_command] in H1.
  destruct (C69_options_have_their_effect _ _ _ _ _ _ _ _ _ _ _ _ _ _ R Ep) as (Fo & _ & _ & _). destruct force; [destruct Nf; apply Fo; reflexivity|].
  destruct (crypt_options _ _ _ _ _ _ _ _ _ _ _ _ Ep) as (F & _).
  assert (Ns : f_entries (w_fs w) s <> None) by (destruct Pb as (i & A & _); congruence).
  assert (Un : forall g, In g (moments w1) -> plain_file g s b).
  { intros g Ig. destruct (C28_existing_files_survive _ _ _ _ _ (set_ui w u) _ _ Hl W Pw F H1 g s Ig Ns) as [[A B]|(_ & _ & st & q & b' & f & _ & _ & Pb' & _ & (t & c & _ & _ & Ic))].
    - destruct Pb as (i & P1 & P2). exists i. split; [rewrite A; exact P1|]. rewrite B by exact P1. exact P2.
    - exfalso. rewrite (plain_unique _ _ _ _ Pb Pb') in Hb. exact (Hb _ Ic). }
  split; [|split].
  - intros g Ig. rewrite (moments_same _ _ Q) in Ig. exact (Un g Ig).
  - intros st q t I (p & Ei & Ep' & Eo) Et Di N1 Ht. rewrite (proj1 Q) in Ht. rewrite (proj2 (proj2 Q)). destruct (f_entries (w_fs w) t) as [x|] eqn:Ex; [left; discriminate|right].
    destruct (in_dec N.eq_dec t (w_refused w1)) as [J|Nr]; [exact J|exfalso].
    assert (Np : r <> Panic) by (intros ->; apply N1, Es).
    destruct (C29_failed_conversions_leave_nothing _ _ _ _ _ (set_ui w u) _ _ Hl W H1 Np t Ht Ex Nr) as (st' & q' & b' & I' & Eo' & Et' & (t' & c & _ & _ & Ic) & Hp).
    assert (st' = st) as ->.
    { apply in_split in I as (l1 & l2 & ->). apply in_app_or in I'. destruct I' as [I'|[I'|I']]; [|congruence|]; apply in_split in I' as (l3 & l4 & ->); exfalso.
      - rewrite <- app_assoc in Di. cbn [app] in Di. exact (Di l3 st' l4 st l2 q' q t eq_refl Eo' Eo Et' Et).
      - exact (Di l1 st l3 st' l4 q q' t eq_refl Eo Eo' Et Et'). }
    destruct (Hp p Ei) as (s' & f & Es' & If & Pb'). assert (s' = s) by congruence. subst s'. rewrite (plain_unique _ _ _ _ (Un f If) Pb') in Hb. exact (Hb _ Ic).
  - intros st q I (p & Ei & Ep' & Eo) E0. assert (r = Ok tt) as -> by (destruct r as [[]| |]; [reflexivity|rewrite Es in E0; discriminate E0..]).
    destruct (reported_success entry_of lib Hl _ _ _ _ _ H1 W st I) as [X|(q' & t & b' & f & _ & _ & _ & If & (t' & c & _ & _ & Ic) & _ & Hp)]; [congruence|].
    destruct (Hp p Ei) as (s' & Es' & Pb' & _). assert (s' = s) by congruence. subst s'. rewrite (plain_unique _ _ _ _ (Un f If) Pb') in Hb. exact (Hb _ Ic).
Qed.
Print Assumptions C95_hopeless_file_among_others.

(** The same through pipes: the run fails. *)
Theorem C95_hopeless_streams : forall (entry_of : names) lib sha512 files args occs free tin tout terr w status w' streams policy force d u rest b,
  lib_ok lib -> means 0 args occs free -> to_stdout occs free ->
  parse_command_line sha512 files args tin tout terr (w_ui w) = (Ok (CryptStreams streams policy force d), u) ->
  u_input u = Some rest -> supplied entry_of (w_fs w) rest free b -> hopeless lib d b ->
  main entry_of lib sha512 files args tin tout terr w status w' -> status <> 0.
Proof.
  intros entry_of lib sha512 files args occs free tin tout terr w status w' streams policy force d u rest b Hl R T Ep Iu Su Hb H E0.
  destruct (main_inv _ _ _ _ _ _ _ _ _ _ _ H) as (rc & u' & Ep' & K). rewrite Ep in Ep'. injection Ep' as <- <-.
  destruct K as [(N & _)|(c & r & w1 & [= <-] & H1 & _ & _ & _ & Es)]; [destruct (N _ eq_refl)|]. cbn [run_command] in H1.
  destruct (C69_options_have_their_effect _ _ _ _ _ _ _ _ _ _ _ _ _ _ R Ep) as (_ & _ & So & _). destruct So as [(_ & i & -> & Fs)|(Nt & _)]; [|contradiction].
  assert (r = Ok tt) as -> by (destruct r as [[]| |]; [reflexivity|rewrite Es in E0; discriminate E0..]).
  destruct (streamed lib Hl entry_of i policy force d w u w1 free rest b H1 Fs Iu Su) as (c & _ & Ic). exact (Hb c Ic).
Qed.
Print Assumptions C95_hopeless_streams.

(** With a pipe nothing comes out either, not even a part of the data, if the keys do not open the header: the keys do not
    satisfy the expression, there is no support by the hardware, or there is no header. *)
Theorem C95_unopenable_streams : forall (entry_of : names) lib sha512 files args occs free tin tout terr w status w' streams policy force D u rest b,
  lib_ok lib -> means 0 args occs free -> to_stdout occs free ->
  parse_command_line sha512 files args tin tout terr (w_ui w) = (Ok (CryptStreams streams policy force (DoDecrypt D)), u) ->
  u_input u = Some rest -> supplied entry_of (w_fs w) rest free b -> unopenable lib D b ->
  main entry_of lib sha512 files args tin tout terr w status w' -> status <> 0 /\ w_stdout w' = w_stdout w.
Proof.
  intros entry_of lib sha512 files args occs free tin tout terr w status w' streams policy force D u rest b Hl R T Ep Iu Su Hb H. split.
  - eapply C95_hopeless_streams; try eassumption. intros c (er & src & room & fl & snk & _ & _ & F & C & _).
    destruct (unopenable_mute lib D b _ _ _ _ _ Hb (ex_intro _ [] (eq_sym (eq_trans (app_nil_r _) F))) C) as [_ N]. apply N. reflexivity.
  - destruct (main_inv _ _ _ _ _ _ _ _ _ _ _ H) as (rc & u' & Ep' & K). rewrite Ep in Ep'. injection Ep' as <- <-.
    destruct K as [(N & _)|(c & r & w1 & [= <-] & H1 & Es)]; [destruct (N _ eq_refl)|]. cbn [run_command] in H1.
    destruct (C69_options_have_their_effect _ _ _ _ _ _ _ _ _ _ _ _ _ _ R Ep) as (_ & _ & So & _). destruct So as [(_ & i & -> & Fs)|(Nt & _)]; [|contradiction].
    pose proof (mute_crypt entry_of lib D b Hb i policy force (set_ui w u) free rest r w1 Fs Iu Su H1) as M. cbn [set_ui w_stdout] in M. rewrite <- M.
    exact (proj1 (proj2 Es)).
Qed.
Print Assumptions C95_unopenable_streams.
Theorem C95_wrong_keys_open_nothing : forall lib subs n t fast b file,
  lib_ok lib -> wf_cred (Complex subs n t) -> is_conversion lib (DoEncrypt (Complex subs n t) fast) b file ->
  exists er ser cod chunk, random_ok er /\ encrypt_header lib (mkEncryptOptions subs n t fast) er = Ok (ser, cod, chunk) /\ begins_with_header ser file /\
    forall D, Forall (decryption_cred (co_cs cod)) D ->
      no_accident (co_cs cod) (fst (cs_keypair (co_cs cod) (er_seed er))) D (leaves (Complex subs n t)) (header_keys ser) ->
      ~ sat (co_cs cod) D (Complex subs n t) -> unopenable lib D file.
Proof.
  intros lib subs n t fast b file Hl Wc (er & src & room & fl & snk & Hr & Ee & Fb & C & Ec). cbn [conversion] in C. set (opts := mkEncryptOptions subs n t fast) in *.
  destruct (encrypt_header lib opts er) as [[[ser cod] chunk]| |] eqn:He; [|unfold encrypt_stream in C; rewrite He in C; destruct C; discriminate..].
  exists er, ser, cod, chunk. split; [exact Hr|]. split; [exact He|].
  destruct (encrypt_stream_ok lib opts er ser cod chunk Hl Hr He _ _ _ C) as (L & Ew & _).
  assert (L1 : 1 <= lenN ser) by (eapply ser_nonempty; eassumption).
  assert (B : begins_with_header ser file) by (rewrite Ec; eapply header_first; try eassumption; reflexivity). split; [exact B|].
  intros D HD Ha Ns. apply (header_unopenable lib D file ser (conj L1 L) B). intros x Hx.
  destruct (header_round lib opts er ser cod chunk D Hl Hr Wc He ltac:(eapply N.le_lt_trans; [exact L|reflexivity]) HD Ha) as [[_ S]|[E _]]; [contradiction|congruence].
Qed.
Print Assumptions C95_wrong_keys_open_nothing.
Theorem C95_other_files_open_nothing : forall lib D b, (forall h, ~ begins_with_header h b) -> unopenable lib D b.
Proof. exact no_header_unopenable. Qed.
Print Assumptions C95_other_files_open_nothing.
Theorem C95_fast_files_open_nothing : forall lib lib' c b file D,
  lib_ok lib' -> wf_cred c -> is_conversion lib' (DoEncrypt c true) b file -> lib AES256GCM = None -> unopenable lib D file.
Proof. exact fast_file_unopenable. Qed.
Print Assumptions C95_fast_files_open_nothing.

(** ** Cases *)

(** A machine without support. *)
Definition slow_lib : crypto_lib := fun a => match a with AES256GCM => None | ChaCha20Poly1305Ietf => Some toy_cs end.
Lemma slow_lib_ok : lib_ok slow_lib.
Proof. intros [] cs H; cbn in H; try discriminate H; injection H as <-; exact toy_ok. Qed.

(** A file that was encrypted with --fast on a machine with support. *)
Definition hope_opts : encrypt_options := mkEncryptOptions case_subs 1 1 true.
Lemma hope_header : exists ser cod chunk, encrypt_header toy_lib hope_opts some_random = Ok (ser, cod, chunk) /\ lenN ser <= MAX_HEADER_LEN.
Proof.
  assert (K : match encrypt_header toy_lib hope_opts some_random with Ok (ser, _, _) => lenN ser <=? MAX_HEADER_LEN | _ => false end = true) by (vm_compute; reflexivity).
  destruct (encrypt_header toy_lib hope_opts some_random) as [[[ser cod] chunk]|e|]; try discriminate K. exists ser, cod, chunk. split; [reflexivity|]. apply N.leb_le, K.
Qed.
Example C95_decryption_case : lib_ok toy_lib /\ wf_cred case_cred /\ slow_lib AES256GCM = None /\ exists file, is_conversion toy_lib (DoEncrypt case_cred true) case_data file.
Proof.
  split; [exact toy_lib_ok|]. split; [exact case_wf_cred|]. split; [reflexivity|].
  destruct (conversion_total toy_lib toy_lib_ok (DoEncrypt case_cred true) some_random [RData case_data] (mkSink [] None true false) some_random_ok) as (r & snk & C).
  assert (r = Ok tt) as ->.
  { refine (convertible_encrypt toy_lib toy_lib_ok case_subs 1 1 true case_data _ some_random [RData case_data] r snk some_random_ok eq_refl eq_refl C). intros er R.
    destruct hope_header as (ser0 & cod0 & chunk0 & E0 & K).
    destruct (proj2 (encrypt_header_accepts toy_lib hope_opts er R case_wf_cred)) as [[[ser cod] chunk] E].
    { exists toy_cs. split; [reflexivity|]. cbn. repeat split; lia. }
    exists ser, cod, chunk. split; [exact E|].
    destruct (header_shape toy_lib toy_lib hope_opts hope_opts some_random er ser0 cod0 chunk0 ser cod chunk toy_lib_ok toy_lib_ok some_random_ok R case_wf_cred case_wf_cred (same_shape_refl _) eq_refl E0 E) as (h & h' & -> & -> & _ & _ & Re & _).
    unfold lenN in *. rewrite <- (redact_length _ _ Re). exact K. }
  exists (w_out snk), some_random, [RData case_data], None, true, snk. split; [exact some_random_ok|]. split; [reflexivity|]. split; [reflexivity|]. split; [exact C|reflexivity].
Qed.

(** rypt --fast --password-file pw --discard-inputs notes, without support *)
Definition fast_command : list text := map lit ["--fast"; "--password-file"; "pw"; "--discard-inputs"; "notes"]%string.
Example C95_fast_case : exists occs status w', lib_ok slow_lib /\ slow_lib AES256GCM = None /\ wf_fs (w_fs case_start) /\ w_past case_start = [] /\
  means 0 fast_command occs [lit "notes"] /\ asks_to_encrypt occs /\ given OFast occs /\ ~ given OForce occs /\
  main (case_names false false) slow_lib case_digest case_secrets fast_command false false false case_start status w' /\ plain_file (w_fs w') (num "notes") case_data.
Proof.
  destruct (parse_options fast_command) as [m| |] eqn:P; try discriminate P. destruct (proj1 (options_read _ _) P) as [M _]. vm_compute in P. injection P as <-. cbn [m_occs m_free] in M.
  destruct (C56_every_run_ends (case_names false false) slow_lib case_digest case_secrets fast_command false false false case_start slow_lib_ok case_spacious) as (status & w' & H).
  eexists _, status, w'. assert (A : asks_to_encrypt _) by (intros o G; revert o G; match type of M with means _ _ ?occs _ => instantiate (1 := occs) end; intros o (x & I & <-); cbn [In] in I; repeat (destruct I as [<-|I]); try destruct I; cbn; intuition discriminate).
  split; [exact slow_lib_ok|]. split; [reflexivity|]. split; [exact case_wf_fs|]. split; [reflexivity|]. split; [exact M|]. split; [exact A|].
  match type of M with means _ _ ?occs _ => assert (F : given OFast occs) by (eexists; split; [left; reflexivity|reflexivity]); assert (N : ~ given OForce occs) by (intros (x & I & E); cbn [In] in I; repeat (destruct I as [<-|I]); try destruct I; discriminate E) end.
  split; [exact F|]. split; [exact N|]. split; [exact H|].
  destruct (C95_fast_runs_without_hardware _ _ _ _ _ _ _ _ _ _ case_start _ _ slow_lib_ok eq_refl case_wf_fs eq_refl M A F H) as (_ & _ & K). destruct (K N) as [U _].
  destruct (U (w_fs w') (num "notes") (or_introl eq_refl)) as [U1 U2]; [discriminate|]. destruct case_plain as (i & P1 & P2). exists i. split; [rewrite U1; exact P1|]. rewrite U2 by exact P1. exact P2.
Qed.

(** rypt -d --password-file pw --discard-inputs junk.rypt *)
Definition junk_command : list text := map lit ["-d"; "--password-file"; "pw"; "--discard-inputs"; "junk.rypt"]%string.
Lemma junk_hopeless D : hopeless toy_lib (DoDecrypt D) case_junk.
Proof. apply C95_other_files. intros h (f & rest & (b0 & b1 & b2 & b3 & z & -> & _) & E). discriminate E. Qed.
Example C95_hopeless_case : exists occs streams policy d u (status : N) (w' : world), lib_ok toy_lib /\ wf_fs (w_fs case_start) /\ w_past case_start = [] /\
  means 0 junk_command occs [lit "junk.rypt"] /\ ~ given OForce occs /\ ~ to_stdout occs [lit "junk.rypt"] /\
  parse_command_line case_digest case_secrets junk_command false false false (w_ui case_start) = (Ok (CryptStreams streams policy false d), u) /\
  (forall a, In a [lit "junk.rypt"] -> exists s b, entry_number (case_names false false) (components a) = Some s /\ plain_file (w_fs case_start) s b /\ hopeless toy_lib d b) /\
  main (case_names false false) toy_lib case_digest case_secrets junk_command false false false case_start status w'.
Proof.
  destruct (parse_options junk_command) as [m| |] eqn:P; try discriminate P. destruct (proj1 (options_read _ _) P) as [M _]. vm_compute in P. injection P as <-. cbn [m_occs m_free] in M.
  destruct (C56_every_run_ends (case_names false false) toy_lib case_digest case_secrets junk_command false false false case_start toy_lib_ok case_spacious) as (status & w' & H).
  do 2 eexists. exists DeleteFiles. eexists. eexists. exists status, w'. split; [exact toy_lib_ok|]. split; [exact case_wf_fs|]. split; [reflexivity|]. split; [exact M|].
  split. { intros (x & I & E). cbn [In] in I. repeat (destruct I as [<-|I]); try destruct I; discriminate E. }
  split. { intros [(x & I & E)|[E|E]]; [|discriminate E|discriminate E]. cbn [In] in I. repeat (destruct I as [<-|I]); try destruct I; discriminate E. }
  split; [vm_compute; reflexivity|]. split; [|exact H].
  intros a [<-|[]]. exists (num "junk.rypt"), case_junk. split; [reflexivity|]. split; [exists 2; split; reflexivity|apply junk_hopeless].
Qed.

(** rypt -d --password-file pw --discard-inputs junk.rypt other.rypt *)
Definition mixed_command : list text := map lit ["-d"; "--password-file"; "pw"; "--discard-inputs"; "junk.rypt"; "other.rypt"]%string.
Example C95_among_others_case : exists occs d u (status : N) (w' : world), let streams := [case_stream "junk.rypt" "junk"; case_stream "other.rypt" "other"] in
  means 0 mixed_command occs [lit "junk.rypt"; lit "other.rypt"] /\ ~ given OForce occs /\
  parse_command_line case_digest case_secrets mixed_command false false false (w_ui case_start) = (Ok (CryptStreams streams DeleteFiles false d), u) /\
  plain_file (w_fs case_start) (num "junk.rypt") case_junk /\ hopeless toy_lib d case_junk /\
  converts (case_names false false) (case_stream "junk.rypt" "junk") (num "junk.rypt") (at_ "junk") /\ distinct_outputs (case_names false false) streams /\
  main (case_names false false) toy_lib case_digest case_secrets mixed_command false false false case_start status w'.
Proof.
  destruct (parse_options mixed_command) as [m| |] eqn:P; try discriminate P. destruct (proj1 (options_read _ _) P) as [M _]. vm_compute in P. injection P as <-. cbn [m_occs m_free] in M.
  destruct (C56_every_run_ends (case_names false false) toy_lib case_digest case_secrets mixed_command false false false case_start toy_lib_ok case_spacious) as (status & w' & H).
  do 3 eexists. exists status, w'. cbv zeta. split; [exact M|].
  split. { intros (x & I & E). cbn [In] in I. repeat (destruct I as [<-|I]); try destruct I; discriminate E. }
  split; [vm_compute; reflexivity|]. split; [exists 2; split; reflexivity|]. split; [apply junk_hopeless|].
  split. { exists (at_ "junk.rypt"). split; [reflexivity|]. split; reflexivity. }
  split; [|exact H].
  intros l1 st l2 st' l3 q q' t E Eo Eo' Et. destruct l1 as [|x l1].
  - injection E as <- E. destruct l2 as [|y l2]; [|injection E as <- E; destruct l2; discriminate E]. injection E as <- _. injection Eo as <-. injection Eo' as <-.
    vm_compute in Et. injection Et as <-. vm_compute. discriminate.
  - injection E as <- E. destruct l1 as [|y l1]; [injection E as <- E; destruct l2; discriminate E|]. injection E as _ E. destruct l1; discriminate E.
Qed.

(** For other keys see C08_case; here no key at all. *)
Example C95_no_keys_case : exists file, is_conversion toy_lib case_enc case_data file /\ hopeless toy_lib (DoDecrypt []) file.
Proof.
  destruct (case_one KeepFiles) as (w' & _ & (t & file & _ & _ & C) & _); [discriminate|]. exists file. split; [exact C|].
  destruct (C95_wrong_keys toy_lib _ _ _ _ _ _ toy_lib_ok case_wf_cred C) as (er & ser & cod & chunk & _ & _ & _ & K). apply K; [constructor|intros i c ct d _ _ []|].
  intros S. inversion S as [c d []|subs n tt sel Sel F Le E]. subst. clear S K. inversion Sel as [|x l l' Sel' E1 E2|x l l' Sel' E1 E2]; subst; try (inversion Sel'; subst); cbn in Le; try lia;
    inversion F as [|y ys Sy _]; subst; inversion Sy as [c0 d0 []|].
Qed.

(** rypt -d --password-file pw, with a letter on standard input *)
Definition pipe_command : list text := map lit ["-d"; "--password-file"; "pw"]%string.
Definition pipe_start : world := set_ui case_start (set_input (w_ui case_start) (Some [RData [x61]])).
Example C95_unopenable_case : exists occs streams policy force D u rest status w',
  means 0 pipe_command occs [] /\ to_stdout occs [] /\
  parse_command_line case_digest case_secrets pipe_command false false false (w_ui pipe_start) = (Ok (CryptStreams streams policy force (DoDecrypt D)), u) /\ D <> [] /\
  u_input u = Some rest /\ supplied (case_names false false) (w_fs pipe_start) rest [] [x61] /\ unopenable toy_lib D [x61] /\
  main (case_names false false) toy_lib case_digest case_secrets pipe_command false false false pipe_start status w' /\ status <> 0 /\ w_stdout w' = [].
Proof.
  destruct (parse_options pipe_command) as [m| |] eqn:P; try discriminate P. destruct (proj1 (options_read _ _) P) as [M _]. vm_compute in P. injection P as <-. cbn [m_occs m_free] in M.
  destruct (parse_command_line case_digest case_secrets pipe_command false false false (w_ui pipe_start)) as [[[streams policy force [c fast|D]| | |]| |] u] eqn:Ep; try (vm_compute in Ep; discriminate Ep).
  assert (Iu : u_input u = Some [RData [x61]]) by (vm_compute in Ep; injection Ep as _ _ _ _ <-; reflexivity).
  assert (ND : D <> []) by (vm_compute in Ep; injection Ep as _ _ _ <- _; discriminate).
  destruct (C56_every_run_ends (case_names false false) toy_lib case_digest case_secrets pipe_command false false false pipe_start toy_lib_ok case_spacious) as (status & w' & H).
  assert (T : forall occs, to_stdout occs []) by (intros occs; right; left; reflexivity).
  assert (Su : supplied (case_names false false) (w_fs pipe_start) [RData [x61]] [] [x61]) by (left; split; [left; reflexivity|reflexivity]).
  assert (U : unopenable toy_lib D [x61]).
  { apply C95_other_files_open_nothing. intros h (f & r & (b0 & b1 & b2 & b3 & z & -> & _) & E). discriminate E. }
  destruct (C95_unopenable_streams _ _ _ _ _ _ _ _ _ _ _ _ _ _ _ _ _ _ _ _ toy_lib_ok M (T _) Ep Iu Su U H) as [N O].
  eexists _, streams, policy, force, D, u, _, status, w'. split; [exact M|]. split; [apply T|]. split; [reflexivity|]. split; [exact ND|]. split; [exact Iu|]. split; [exact Su|]. split; [exact U|]. split; [exact H|]. split; [exact N|exact O].
Qed.

(** C57, for the whole file system: encrypting files and removing them, and then decrypting the encrypted files and
    removing these, leaves a file system that is as before.

    Vocabulary (BackSpec): [as_before] same entries and contents, [conversions] the streams from files to files.
    [separate], [plain_file] are in FsSpec, [matches], [decryption_cred], [leaves] in CredSpec. *)
From Coq.Strings Require Import Byte String.
From Coq Require Import List NArith ZArith Bool PeanoNat Lia.
From Verif Require Import Base BaseFacts Shamir Errors Io HeaderIoSpec StreamSpec Text Util CliErrors Crypto HeaderCrypto CredSpec FileCrypto Ui UiSpec Paths Cli Fs Commands FsSpec
  FsProofs FsProofs11 FsProofs12 ToyCrypto FsCases FsCases2 PropFs2 BackSpec BackProofs.
Import ListNotations.
Local Open Scope N_scope.

(** Both runs report success.  The files are given to the second run in any order.  Nothing else is changed, made or
    lost, also not what is no ordinary file. *)
Theorem C57_there_and_back : forall e lib pairs back policy c d (fast : bool) w w1 v v1,
  lib_ok lib -> wf_fs (w_fs w) -> w_past w = [] -> w_past v = [] -> faulty e = false ->
  wf_cred c -> leaves c = [c] ->
  (forall cs, lib (if fast then AES256GCM else ChaCha20Poly1305Ietf) = Some cs -> matches cs c d /\ decryption_cred cs d) ->
  separate e (conversions pairs) -> (forall p q, In (p, q) pairs -> exists s b, e p = Some s /\ plain_file (w_fs w) s b) ->
  (forall p q, In (q, p) back <-> In (p, q) pairs) ->
  crypt_streams e lib (conversions pairs) policy false (DoEncrypt (Complex [(1, c)] 1 1) fast) w (Ok tt) w1 ->
  w_fs v = w_fs w1 ->
  crypt_streams e lib (conversions back) DeleteFiles false (DoDecrypt [d]) v (Ok tt) v1 ->
  as_before (w_fs w) (w_fs v1).
Proof.
  intros e lib pairs back policy c d fast w w1 v v1 Hl W P P' Fy Wc Lc Mc Sp Th Bk H1 Ev H2 s.
  destruct (undone e lib pairs back policy DeleteFiles c d fast w w1 v v1 Hl W P P' Fy Wc Lc Mc Sp Th Bk H1 Ev H2) as (A & B & C).
  split; [apply C; reflexivity|]. split; [apply A|apply B].
Qed.
Print Assumptions C57_there_and_back.

(** notes, which another name leads to, is encrypted and removed; then it is decrypted and notes.rypt is removed. *)
Example C57_back_case : exists w1 v v1,
  crypt_streams (case_names false false) toy_lib (conversions [(at_ "notes", at_ "notes.rypt")]) DeleteFiles false case_enc case_world (Ok tt) w1 /\
  f_entries (w_fs w1) (num "notes") = None /\ w_fs v = w_fs w1 /\
  crypt_streams (case_names false false) toy_lib (conversions [(at_ "notes.rypt", at_ "notes")]) DeleteFiles false case_dec v (Ok tt) v1 /\
  as_before (w_fs case_world) (w_fs v1).
Proof.
  set (E := case_names false false).
  assert (Sp : separate E (conversions [(at_ "notes", at_ "notes.rypt")])).
  { intros st st' p q s [<-|[]] [<-|[]] [= <-] [= <-] A B. vm_compute in A, B. congruence. }
  destruct (case_one DeleteFiles) as (w1 & H & _ & Dl); [discriminate|]. specialize (Dl eq_refl).
  set (v := mkWorld (w_fs w1) [] case_ui [] []).
  pose proof (crypt_wf E toy_lib _ _ _ _ _ _ toy_lib_ok H case_wf_fs) as W1.
  destruct (C57_decryption_restores_files E toy_lib _ _ _ _ _ _ case_world _ toy_lib_ok case_wf_fs Sp case_wf_cred H
    (case_stream "notes" "notes.rypt") (num "notes") (at_ "notes.rypt") case_data (or_introl eq_refl)) as (u & c & er & ser & cod & chunk & Eu & Pc & Hr & He & Hh & K).
  { exists (at_ "notes"). repeat split. }
  { exact case_plain. }
  assert (u = num "notes.rypt") as -> by (vm_compute in Eu; injection Eu as <-; reflexivity).
  destruct (K [Password [x70]]) as [K1 _].
  { constructor; [exact I|constructor]. }
  { intros [|[|i]] l ct d Hl _ [<-|[]] _; cbn in Hl; try discriminate Hl. injection Hl as <-. reflexivity. }
  assert (Cv : convertible toy_lib case_dec c).
  { apply K1. apply (sat_group _ _ _ _ _ [(1, Password [x70])]); [repeat constructor| |cbn; lia]. constructor; [|constructor]. apply (sat_leaf _ _ _ (Password [x70])); [left; reflexivity|reflexivity]. }
  assert (Sc : spacious (w_fs v)) by exact (crypt_spacious _ _ _ _ _ _ _ _ _ H case_spacious).
  destruct (total_crypt E toy_lib toy_lib_ok (conversions [(at_ "notes.rypt", at_ "notes")]) DeleteFiles false case_dec v Sc) as ((r & v1 & V) & _).
  destruct (crypt_ready E toy_lib toy_lib_ok eq_refl _ _ _ _ _ _ V W1 eq_refl Sc) as [[_ X]|([->|[X _]] & _)].
  { intros st [<-|[]]. exists (at_ "notes.rypt"), (num "notes.rypt"), c, (at_ "notes"), (num "notes"). repeat (split; [first [reflexivity|exact Pc|exact Cv]|]). exact Dl. }
  { intros l1 st l2 st' l3 q q' t X. destruct (case_single _ _ _ _ _ _ _ X). }
  { discriminate X. }
  2:{ discriminate X. }
  exists w1, v, v1. split; [exact H|]. split; [exact Dl|]. split; [reflexivity|]. split; [exact V|].
  refine (C57_there_and_back E toy_lib [(at_ "notes", at_ "notes.rypt")] [(at_ "notes.rypt", at_ "notes")] DeleteFiles (Password [x70]) (Password [x70]) false case_world w1 v v1
    toy_lib_ok case_wf_fs eq_refl eq_refl eq_refl _ eq_refl _ Sp _ _ H eq_refl V).
  - constructor.
  - intros cs _. split; [reflexivity|exact I].
  - intros p q [[= <- <-]|[]]. exists (num "notes"), case_data. split; [reflexivity|exact case_plain].
  - intros p q. split; intros [[= <- <-]|[]]; left; reflexivity.
Qed.

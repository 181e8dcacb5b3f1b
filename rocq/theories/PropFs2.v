(** C56, C57, C58: success, restoring files, and the reasons for crashes.

    Vocabulary as in PropFs; [faulty entry_of = false] says that the operating system does what it is asked to do and
    [stalls entry_of = false] that measured times and sizes stay in the range of machine integers (Fs); [spacious]
    says that there is room for new files, [ready] that a stream's input is a plain file, that its output is not there yet and that its content
    can be converted ([convertible]), [free_names] that files are not there yet, [can_deliver] which data an input can
    deliver (FsSpec); [enormous], [malformed_group] are in CliSpec and CredSpec. *)
From Coq.Strings Require Import Byte String.
From Coq Require Import List NArith ZArith Bool PeanoNat Lia.
From Verif Require Import Base BaseFacts Shamir Errors Io HeaderIo HeaderIoSpec StreamSpec Text Util CliErrors Getopts Crypto HeaderCrypto CredSpec FileCrypto KeyFiles Ui UiSpec Paths PathSpec PathProofs CliCreds Cli CliSpec Progress Fs Commands FsSpec
  HeaderCryptoProofs4 FsProofs FsProofs2 FsProofs4 FsProofs5 FsProofs6 FsProofs7 FsProofs8 FsProofs9 FsProofs10 FsProofs11 FsProofs12 FsProofs13 FsProofs14 FsProofs15 FsProofs17.
From Verif Require Import Proto ToyCrypto PropHeader FsCases FsCases2.
Import ListNotations.
Local Open Scope N_scope.

(** ** C56 *)

(** Every command line leads to an exit status, whatever the state of the world. *)
Theorem C56_every_run_ends : forall entry_of lib sha512 files args stdin_is_tty stdout_is_tty stderr_is_tty w,
  lib_ok lib -> spacious (w_fs w) -> exists status w', main entry_of lib sha512 files args stdin_is_tty stdout_is_tty stderr_is_tty w status w'.
Proof. intros entry_of lib sha512 files args ti to te w Hl Sp. exact (total_main entry_of lib Hl sha512 files args ti to te w Sp). Qed.
Print Assumptions C56_every_run_ends.

Example C56_run_case : lib_ok toy_lib /\ spacious (w_fs case_start).
Proof. split; [exact toy_lib_ok|exact case_spacious]. Qed.

(** If nothing stands in the way then all files are converted, and removed if that was requested; a question that
    cannot be asked is the only possible error. *)
Theorem C56_nothing_fails_without_reason : forall entry_of lib streams policy d w r w',
  lib_ok lib -> wf_fs (w_fs w) -> spacious (w_fs w) -> faulty entry_of = false -> stalls entry_of = false -> u_room (w_ui w) = None ->
  (forall st, In st streams -> ready entry_of lib d (w_fs w) st) -> distinct_outputs entry_of streams ->
  crypt_streams entry_of lib streams policy false d w r w' ->
  (r = Ok tt \/ (policy = PromptUser /\ exists e, r = Err e /\ In e [CIo; CEof; CNonUtf8; CCannotPrompt])) /\
  (forall st, In st streams -> exists s b q, converts entry_of st s q /\ plain_file (w_fs w) s b /\ has_conversion entry_of lib d b (w_fs w') q) /\
  (policy = DeleteFiles -> forall st s q, In st streams -> converts entry_of st s q -> f_entries (w_fs w') s = None).
Proof.
  intros entry_of lib streams policy d w r w' Hl W Sp So Nst R Rd Di H.
  destruct (crypt_ready entry_of lib Hl So streams policy d w r w' H W R Sp Rd Di) as [[_ X]|(A & B & C)]; [congruence|]. split; [|split].
  - destruct A as [A|(A & e & T & E)]; [auto|]. right. split; [exact A|]. exists e. split; [exact E|exact T].
  - intros st I. destruct (B st I) as (p & s & b & q & B1 & B2 & B3 & B4 & B5). exists s, b, q. split; [exists p; auto|]. auto.
  - intros E st s q I (p & A1 & A2 & _). eapply C; eassumption.
Qed.
Print Assumptions C56_nothing_fails_without_reason.

Example C56_case : wf_fs (w_fs case_world) /\ spacious (w_fs case_world) /\ u_room (w_ui case_world) = None /\
  (forall st, In st [case_stream "notes" "notes.rypt"] -> ready (case_names false false) toy_lib case_enc (w_fs case_world) st) /\
  distinct_outputs (case_names false false) [case_stream "notes" "notes.rypt"] /\
  exists r w', crypt_streams (case_names false false) toy_lib [case_stream "notes" "notes.rypt"] DeleteFiles false case_enc case_world r w'.
Proof.
  split; [exact case_wf_fs|]. split; [exact case_spacious|]. split; [reflexivity|]. split; [intros st [<-|[]]; apply case_ready; [discriminate|reflexivity..]|].
  split; [intros l1 st l2 st' l3 q q' t E; destruct (case_single _ _ _ _ _ _ _ E)|]. destruct (case_one DeleteFiles) as (w' & H & _); [discriminate|]. exists (Ok tt), w'. exact H.
Qed.

(** Encryption has no reasons to fail that depend on the file: it is enough that the expression is realisable and that its
    header, whose size is always the same, is not too long. *)
Theorem C56_encryption_does_not_depend_on_the_file : forall lib subs n t fast cs er0 ser0 cod0 chunk0,
  let opts := mkEncryptOptions subs n t fast in
  lib_ok lib -> wf_cred (expression opts) -> lib (alg_of fast) = Some cs ->
  (forall er, random_ok er -> realisable cs (snd (cs_keypair cs (er_seed er))) 32 (expression opts)) ->
  random_ok er0 -> encrypt_header lib opts er0 = Ok (ser0, cod0, chunk0) -> lenN ser0 <= 16 * 1024 * 1024 ->
  forall b, convertible lib (DoEncrypt (Complex subs n t) fast) b.
Proof.
  intros lib subs n t fast cs er0 ser0 cod0 chunk0 opts Hl W El Re R0 E0 L0 b. apply convertible_encrypt; [exact Hl|]. intros er R.
  destruct (proj2 (encrypt_header_accepts lib opts er R W)) as [[[ser cod] chunk] E].
  { exists cs. split; [exact El|apply Re, R]. }
  exists ser, cod, chunk. split; [exact E|].
  destruct (C11_header_hides_recipient_types lib lib opts opts er0 er ser0 cod0 chunk0 ser cod chunk) as [L _]; auto.
  - apply same_shape_refl.
  - lia.
  - unfold lenN in *. rewrite <- L. exact L0.
Qed.
Print Assumptions C56_encryption_does_not_depend_on_the_file.

Example C56_encryption_case : wf_cred (expression case_opts) /\ (forall er, random_ok er -> realisable toy_cs (snd (cs_keypair toy_cs (er_seed er))) 32 (expression case_opts)) /\
  exists er0 ser0 cod0 chunk0, random_ok er0 /\ encrypt_header toy_lib case_opts er0 = Ok (ser0, cod0, chunk0) /\ lenN ser0 <= 16 * 1024 * 1024.
Proof.
  split; [exact case_wf_cred|]. split; [intros er _; cbn; repeat split; lia|]. destruct case_header as (ser & cod & chunk & E & L). exists some_random, ser, cod, chunk. split; [exact some_random_ok|]. split; [exact E|exact L].
Qed.

(** The exit status of the program is then 0, for conversions and for key generation. *)
Theorem C56_exit_status : forall entry_of lib sha512 files args stdin_is_tty stdout_is_tty stderr_is_tty w u status w',
  lib_ok lib -> wf_fs (w_fs w) -> spacious (w_fs w) -> faulty entry_of = false -> stalls entry_of = false -> u_room u = None ->
  main entry_of lib sha512 files args stdin_is_tty stdout_is_tty stderr_is_tty w status w' ->
  (forall streams policy d,
     parse_command_line sha512 files args stdin_is_tty stdout_is_tty stderr_is_tty (w_ui w) = (Ok (CryptStreams streams policy false d), u) ->
     policy <> PromptUser -> (forall st, In st streams -> ready entry_of lib d (w_fs w) st) -> distinct_outputs entry_of streams -> status = 0) /\
  (forall streams,
     parse_command_line sha512 files args stdin_is_tty stdout_is_tty stderr_is_tty (w_ui w) = (Ok (GenerateKeyPair streams false), u) ->
     lib ChaCha20Poly1305Ietf <> None -> free_names entry_of (w_fs w) (flat_map key_files streams) -> status = 0).
Proof.
  intros entry_of lib sha512 files args ti to te w u status w' Hl W Sp So Nst R H.
  assert (K : forall c, parse_command_line sha512 files args ti to te (w_ui w) = (Ok c, u) -> (forall r w1, run_command entry_of lib sha512 c (set_ui w u) r w1 -> r = Ok tt) -> status = 0).
  { intros c Ep Hr. destruct H as (r & w1 & H & K). assert (r = Ok tt) as ->; [|apply K].
    destruct H as [(c' & w2 & [E ->] & H)|[(e & [E _] & _)|([E _] & _)]]; rewrite Ep in E; try discriminate E. injection E as ->. rewrite Ep in H. eapply Hr, H. }
  split.
  - intros streams policy d Ep Np Rd Di. eapply K; [exact Ep|]. intros r w1 H1. cbn [run_command] in H1.
    destruct (C56_nothing_fails_without_reason entry_of lib streams policy d (set_ui w u) r w1 Hl W Sp So Nst R Rd Di H1) as [[E|[E _]] _]; [exact E|contradiction].
  - intros streams Ep Ln Fr. eapply K; [exact Ep|]. intros r w1 H1. cbn [run_command] in H1. eapply (generate_ready entry_of lib sha512 Hl So); try eassumption; auto.
Qed.
Print Assumptions C56_exit_status.

Example C56_status_case :
  (exists u, parse_command_line case_digest case_secrets case_command false false false (w_ui case_start) = (Ok (CryptStreams [case_stream "notes" "notes.rypt"] DeleteFiles false case_enc), u) /\ u_room u = None) /\
  (exists u, parse_command_line case_digest case_secrets case_keygen false false false (w_ui case_start) = (Ok (GenerateKeyPair [case_pair] false), u) /\ u_room u = None) /\
  free_names (case_names false false) (w_fs case_start) (flat_map key_files [case_pair]) /\
  exists w', main (case_names false false) toy_lib case_digest case_secrets case_command false false false case_start 0 w'.
Proof.
  split; [exists case_ui; split; [exact case_parsed|reflexivity]|]. split; [exists (w_ui case_start); split; [exact case_keygen_parsed|reflexivity]|]. split; [apply case_free|].
  destruct case_program as (w' & H & _). exists w'. exact H.
Qed.

(** In stream mode the content of a file, or what is read from the input, is converted to the output, and never to a file. *)
Theorem C56_streams_do_not_fail_without_reason : forall entry_of lib i b policy d w r w',
  faulty entry_of = false -> stalls entry_of = false -> u_room (w_ui w) = None -> (forall p, i <> IFile p) ->
  readable entry_of (w_fs w) (w_ui w) i b -> convertible lib d b ->
  crypt_streams entry_of lib [mkStream i (Ok OStdout)] policy false d w r w' -> r = Ok tt.
Proof. intros entry_of lib i b policy d w r w' So Ns R Ni Rd Cv H. eapply stream_ready; eassumption. Qed.
Print Assumptions C56_streams_do_not_fail_without_reason.

Example C56_streams_case : readable (case_names false false) (w_fs case_world) (w_ui case_world) (IFileStream (at_ "link")) case_data /\ convertible toy_lib case_enc case_data /\
  exists r w', crypt_streams (case_names false false) toy_lib [mkStream (IFileStream (at_ "link")) (Ok OStdout)] KeepFiles false case_enc case_world r w'.
Proof. split; [apply case_readable|]. split; [apply case_convertible|]. destruct (case_streamed KeepFiles) as (w' & H). exists (Ok tt), w'. exact H. Qed.

(** ** C57 *)

(** A file that was encrypted by a successful run can be decrypted by everybody who has sufficient credentials, wherever
    the encrypted file is by then and whatever else is decrypted by the same run, and only by them; what a successful run
    makes of it is the original file. *)
Theorem C57_decryption_restores_files : forall entry_of lib streams policy subs n t fast w w1,
  lib_ok lib -> wf_fs (w_fs w) -> separate entry_of streams -> wf_cred (Complex subs n t) ->
  crypt_streams entry_of lib streams policy false (DoEncrypt (Complex subs n t) fast) w (Ok tt) w1 ->
  forall st s q b, In st streams -> converts entry_of st s q -> plain_file (w_fs w) s b ->
  exists u c er ser cod chunk,
    entry_of q = Some u /\ plain_file (w_fs w1) u c /\
    random_ok er /\ encrypt_header lib (mkEncryptOptions subs n t fast) er = Ok (ser, cod, chunk) /\ begins_with_header ser c /\
    forall D, Forall (decryption_cred (co_cs cod)) D ->
    no_accident (co_cs cod) (fst (cs_keypair (co_cs cod) (er_seed er))) D (leaves (Complex subs n t)) (header_keys ser) ->
    (sat (co_cs cod) D (Complex subs n t) -> convertible lib (DoDecrypt D) c) /\
    forall entry_of' streams' policy' v v1,
      wf_fs (w_fs v) -> separate entry_of' streams' -> crypt_streams entry_of' lib streams' policy' false (DoDecrypt D) v (Ok tt) v1 ->
      forall st' s' q', In st' streams' -> converts entry_of' st' s' q' -> plain_file (w_fs v) s' c ->
      sat (co_cs cod) D (Complex subs n t) /\ exists u', entry_of' q' = Some u' /\ plain_file (w_fs v1) u' b.
Proof.
  intros entry_of lib streams policy subs n t fast w w1 Hl W Sp Wc H st s q b I (p & Ei & Es & Eo) Pb.
  assert (U : forall f x b1 b2, plain_file f x b1 -> plain_file f x b2 -> b1 = b2).
  { intros f x b1 b2 (i & A & B) (j & A' & B'). assert (i = j) by congruence. subst j. congruence. }
  assert (K : forall entry_of streams policy d w w1, wf_fs (w_fs w) -> separate entry_of streams -> crypt_streams entry_of lib streams policy false d w (Ok tt) w1 ->
    forall st p s q b, In st streams -> s_input st = IFile p -> entry_of p = Some s -> s_output st = Ok (OFile q) -> plain_file (w_fs w) s b -> has_conversion entry_of lib d b (w_fs w1) q).
  { clear - Hl U. intros entry_of streams policy d w w1 W Sp H st p s q b I Ei Es Eo Pb. destruct (reported_success entry_of lib Hl _ _ _ _ _ H W st I) as [E|(q' & u & b' & f & E & Eu & _ & _ & _ & Hc & Hp)]; [congruence|].
    assert (q' = q) by congruence. subst q'. destruct (Hp p Ei) as (s' & Es' & _ & Z). assert (s' = s) by congruence. subst s'.
    assert (b' = b) as <-; [|apply Hc, Sp]. eapply U; [apply Z|exact Pb]. destruct Pb as (i & A & _). congruence. }
  destruct (K _ _ _ _ _ _ W Sp H _ _ _ _ _ I Ei Es Eo Pb) as (u & c & Eu & Pc & Ic).
  destruct (conversion_restored lib Hl subs n t fast b c Wc Ic) as (er & ser & cod & chunk & Hr & He & Hh & Z).
  exists u, c, er, ser, cod, chunk. do 5 (split; [assumption|]). intros D HD Na. destruct (Z D HD Na) as [Z1 Z2]. split; [exact Z1|].
  intros entry_of' streams' policy' v v1 Wv Sv Hv st' s' q' I' (p' & Ei' & Es' & Eo') Pv.
  destruct (K _ _ _ _ _ _ Wv Sv Hv _ _ _ _ _ I' Ei' Es' Eo' Pv) as (u' & b' & Eu' & Pb' & Ib'). destruct (Z2 b' Ib') as [Hs ->]. split; [exact Hs|]. exists u'. auto.
Qed.
Print Assumptions C57_decryption_restores_files.

(** notes is encrypted and removed; the encrypted file, copied to another file system, is decrypted there. *)
Definition case_copy (c : bytes) : world := mkWorld
  (mkFs (fun s => if s =? num "copy.rypt" then Some (EFile 7) else None) (fun i => if i =? 7 then Some (mkNode true c 1) else None)) [] case_ui [] [].
Example C57_case : exists w1 c v1,
  crypt_streams (case_names false false) toy_lib [case_stream "notes" "notes.rypt"] DeleteFiles false case_enc case_world (Ok tt) w1 /\
  plain_file (w_fs w1) (num "notes.rypt") c /\ f_entries (w_fs w1) (num "notes") = None /\
  crypt_streams (case_names false false) toy_lib [case_stream "copy.rypt" "copy"] KeepFiles false case_dec (case_copy c) (Ok tt) v1 /\
  plain_file (w_fs v1) (num "copy") case_data.
Proof.
  set (E := case_names false false).
  assert (Sep : forall i o, at_ i = [Normal (lit i)] -> at_ o = [Normal (lit o)] -> num i <> num o -> separate E [case_stream i o]).
  { intros i o Hi Ho D st st' p q s [<-|[]] [<-|[]] [= <-] [= <-] A B. rewrite Hi in A. rewrite Ho in B. injection A as <-. injection B as B. exact (D (eq_sym B)). }
  destruct (case_one DeleteFiles) as (w1 & H & _ & Dl); [discriminate|].
  destruct (C57_decryption_restores_files E toy_lib _ _ _ _ _ _ case_world _ toy_lib_ok case_wf_fs (Sep "notes"%string "notes.rypt"%string eq_refl eq_refl ltac:(vm_compute; discriminate)) case_wf_cred H
    (case_stream "notes" "notes.rypt") (num "notes") (at_ "notes.rypt") case_data (or_introl eq_refl)) as (u & c & er & ser & cod & chunk & Eu & Pc & Hr & He & Hh & K).
  { exists (at_ "notes"). repeat split. }
  { exact case_plain. }
  assert (u = num "notes.rypt") as -> by (vm_compute in Eu; injection Eu as <-; reflexivity).
  destruct (K [Password [x70]]) as [K1 K2].
  { constructor; [exact I|constructor]. }
  { intros [|[|i]] l ct d Hl _ [<-|[]] _; cbn in Hl; try discriminate Hl. injection Hl as <-. reflexivity. }
  assert (Cv : convertible toy_lib case_dec c).
  { apply K1. apply (sat_group _ _ _ _ _ [(1, Password [x70])]); [repeat constructor| |cbn; lia]. constructor; [|constructor]. apply (sat_leaf _ _ _ (Password [x70])); [left; reflexivity|reflexivity]. }
  assert (Wf : wf_fs (w_fs (case_copy c))).
  { assert (Z : forall s i, f_entries (w_fs (case_copy c)) s = Some (EFile i) -> s = num "copy.rypt" /\ i = 7).
    { intros s i. cbn [case_copy w_fs f_entries]. destruct (N.eqb_spec s (num "copy.rypt")); [intros [= <-]; auto|discriminate]. }
    split; [intros s i A; destruct (Z _ _ A) as [_ ->]; eexists; split; [reflexivity|cbn; lia]|]. intros s t i n A B D. destruct (Z _ _ A) as [-> _], (Z _ _ B) as [-> _]. contradiction D. reflexivity. }
  assert (Sp : spacious (w_fs (case_copy c))).
  { intros l. exists (N.succ (7 + fold_right N.max 0 l)). split.
    - split; cbn [case_copy w_fs f_nodes f_entries]; [destruct (N.eqb_spec (N.succ (7 + fold_right N.max 0 l)) 7); [lia|reflexivity]|]. intros t. destruct (t =? _); [|discriminate]. intros X. assert (7 = N.succ (7 + fold_right N.max 0 l)) by congruence. lia.
    - intros In_. assert (M : forall x, In x l -> x <= fold_right N.max 0 l) by (clear; induction l as [|y l IH]; intros x []; cbn [fold_right]; [subst; lia|specialize (IH x H); lia]). specialize (M _ In_). lia. }
  assert (Pv : plain_file (w_fs (case_copy c)) (num "copy.rypt") c) by (exists 7; split; reflexivity).
  destruct (total_crypt E toy_lib toy_lib_ok [case_stream "copy.rypt" "copy"] KeepFiles false case_dec (case_copy c) Sp) as ((r & v1 & V) & _).
  destruct (crypt_ready E toy_lib toy_lib_ok eq_refl _ _ _ _ _ _ V Wf eq_refl Sp) as [[_ X]|([->|[X _]] & _)].
  { intros st [<-|[]]. exists (at_ "copy.rypt"), (num "copy.rypt"), c, (at_ "copy"), (num "copy"). repeat (split; [first [reflexivity|exact Pv|exact Cv]|]). reflexivity. }
  { intros l1 st l2 st' l3 q q' t X. destruct (case_single _ _ _ _ _ _ _ X). }
  { discriminate X. }
  2:{ discriminate X. }
  destruct (K2 E _ _ _ _ Wf (Sep "copy.rypt"%string "copy"%string eq_refl eq_refl ltac:(vm_compute; discriminate)) V (case_stream "copy.rypt" "copy") (num "copy.rypt") (at_ "copy") (or_introl eq_refl)) as (_ & u' & Eu' & Pu); [exists (at_ "copy.rypt"); repeat split|exact Pv|].
  assert (u' = num "copy") as -> by (vm_compute in Eu'; injection Eu' as <-; reflexivity).
  exists w1, c, v1. split; [exact H|]. split; [exact Pc|]. split; [exact (Dl eq_refl)|]. split; [exact V|exact Pu].
Qed.

(** ** C58 *)

(** The program crashes, with exit status 101, only for known reasons: a private key file with a line of 128 bytes that
    has a character across byte 64 (C45); a progress report outside its range (C44); an expression with at least 2^40
    shares in a group; or a file to be decrypted whose header has a malformed group that the credentials open (C13). *)
Theorem C58_crashes_have_known_reasons : forall entry_of lib sha512 files args stdin_is_tty stdout_is_tty stderr_is_tty w w',
  lib_ok lib -> u_input (w_ui w) <> None ->
  main entry_of lib sha512 files args stdin_is_tty stdout_is_tty stderr_is_tty w 101 w' ->
  (exists m ts f b t line, parse_options args = Ok m /\ get_mode m = MCrypt Decrypt /\ extract_tokens m = Ok ts /\ In (PrivateKeyFile f) ts /\
     files f = Some b /\ from_utf8 b = Valid t /\ In line (map trim (lines t)) /\
     lenN (utf8 (remove_whitespace line)) = 128 /\ ~ (exists x y, remove_whitespace line = x ++ y /\ lenN (utf8 x) = 64)) \/
  stalls entry_of = true \/
  (exists streams policy force c fast u,
     parse_command_line sha512 files args stdin_is_tty stdout_is_tty stderr_is_tty (w_ui w) = (Ok (CryptStreams streams policy force (DoEncrypt c fast)), u) /\
     enormous c) \/
  (exists streams policy force D u st src ser k rest h t l cs ds,
     parse_command_line sha512 files args stdin_is_tty stdout_is_tty stderr_is_tty (w_ui w) = (Ok (CryptStreams streams policy force (DoDecrypt D)), u) /\
     In st streams /\ (force = false -> exists f, In f (moments w') /\ can_deliver entry_of f u (s_input st) src) /\
     read_header src = Ok (ser, k, rest) /\ decode_header ser = Some h /\ hd_payload_key h = Some (t, l) /\
     cryptosys_from_proto lib (hd_family h) = Ok cs /\ map_out (decryptor_from_credential cs (hd_ephemeral_pk h)) D = Ok ds /\
     malformed_group ds (KComp t l)).
Proof.
  intros entry_of lib sha512 files args ti to te w w' Hl Hi H.
  destruct (main_panic sha512 files entry_of lib Hl args ti to te w w' Hi H) as [(m & ts & f & A & B & C & D & E)|[K|(streams & policy & force & d & u & Ep & K)]]; [|auto|].
  - left. destruct (private_file_panic _ _ _ E) as (b & t & l & E1 & E2 & E3 & E4 & E5). exists m, ts, f, b, t, l. auto 10.
  - right. right. destruct d as [c fast|D]; [left; exists streams, policy, force, c, fast, u; auto|right].
    destruct K as (st & src & ser & k & rest & h & t & l & cs & ds & K). exists streams, policy, force, D, u, st, src, ser, k, rest, h, t, l, cs, ds. split; [exact Ep|exact K].
Qed.
Print Assumptions C58_crashes_have_known_reasons.

(** A private key file with a line whose 65th byte is inside a character crashes the program. *)
Definition case_broken (f : text) : option bytes := if text_eqb f (lit "k") then Some (utf8 (repeat 97 63 ++ [233] ++ repeat 97 63)) else None.
Example C58_case : u_input (w_ui case_start) <> None /\
  exists w', main (case_names false false) toy_lib case_digest case_broken (map lit ["-d"; "--private-key"; "k"; "notes.rypt"]%string) false false false case_start 101 w'.
Proof.
  split; [discriminate|].
  assert (P : exists u, parse_command_line case_digest case_broken (map lit ["-d"; "--private-key"; "k"; "notes.rypt"]%string) false false false (w_ui case_start) = (Panic, u)) by (eexists; vm_compute; reflexivity).
  destruct P as [u P]. exists (set_ui case_start u). exists Panic. eexists. split; [|split; reflexivity]. right. right. split; [|reflexivity]. split; rewrite P; reflexivity.
Qed.

(** Encryption with a reasonable expression never crashes. *)
Theorem C58_encryption_never_crashes : forall entry_of lib sha512 files args stdin_is_tty stdout_is_tty stderr_is_tty w m status w',
  lib_ok lib -> u_input (w_ui w) <> None -> stalls entry_of = false -> parse_options args = Ok m -> get_mode m = MCrypt Encrypt ->
  (forall streams policy force c fast u,
     parse_command_line sha512 files args stdin_is_tty stdout_is_tty stderr_is_tty (w_ui w) = (Ok (CryptStreams streams policy force (DoEncrypt c fast)), u) -> ~ enormous c) ->
  main entry_of lib sha512 files args stdin_is_tty stdout_is_tty stderr_is_tty w status w' -> status <> 101.
Proof.
  intros entry_of lib sha512 files args ti to te w m status w' Hl Hi Ns Hm Hd Ne H ->.
  destruct (C58_crashes_have_known_reasons entry_of lib sha512 files args ti to te w w' Hl Hi H)
    as [(m' & ts & f & b & t & l & A & B & _)|[K|[(streams & policy & force & c & fast & u & Ep & K)|(streams & policy & force & D & u & st & src & ser & k & rest & h & t & l & cs & ds & Ep & _)]]].
  - congruence.
  - congruence.
  - exact (Ne _ _ _ _ _ _ Ep K).
  - apply command_line_inv in Ep as (m' & Hm' & Pf & _). assert (m' = m) by congruence. subst m'. rewrite Hd in Pf. destruct (_ && _); exact Pf.
Qed.
Print Assumptions C58_encryption_never_crashes.

Example C58_encryption_case : u_input (w_ui case_start) <> None /\ (exists m, parse_options case_command = Ok m /\ get_mode m = MCrypt Encrypt) /\
  (forall streams policy force c fast u,
     parse_command_line case_digest case_secrets case_command false false false (w_ui case_start) = (Ok (CryptStreams streams policy force (DoEncrypt c fast)), u) -> ~ enormous c) /\
  exists w', main (case_names false false) toy_lib case_digest case_secrets case_command false false false case_start 0 w'.
Proof.
  split; [discriminate|]. split; [eexists; split; [vm_compute; reflexivity|reflexivity]|]. split.
  - intros streams policy force c fast u E. rewrite case_parsed in E. injection E as <- <- <- <- <- <-. unfold case_cred, case_subs. cbn [enormous]. intros [X|[X|X]]; [vm_compute in X; apply X; reflexivity|exact X..].
  - destruct case_program as (w' & H & _). exists w'. exact H.
Qed.

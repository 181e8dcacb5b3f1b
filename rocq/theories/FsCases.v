(** A small file system and the runs in it that the examples of PropFs and PropFs2 are about. *)
From Coq.Strings Require Import Byte String.
From Coq Require Import List NArith ZArith Bool PeanoNat Lia.
From Verif Require Import Base BaseFacts Shamir Errors Io HeaderIo HeaderIoSpec HeaderIoProofs StreamSpec Text Util CliErrors Getopts Crypto HeaderCrypto CredSpec FileCrypto KeyFiles Ui UiSpec Paths PathSpec PathProofs CliCreds Cli CliSpec Progress Fs Commands FsSpec
  HeaderCryptoProofs4 HeaderPanics FsProofs ConvProofs FsProofs2 FsProofs4 FsProofs5 FsProofs6 FsProofs7 FsProofs8 FsProofs9 FsProofs10 FsProofs11 FsProofs12 FsProofs13 FsProofs14 FsProofs15 FsProofs16 Proto ToyCrypto.
Import ListNotations.
Local Open Scope N_scope.

(** All names are in one directory. *)
Definition case_number (p : path) : option N :=
  match p with [Normal n] => Some (fold_left (fun a c => a * 256 + c) n 1) | _ => None end.
Definition case_names (fault stall : bool) : names := mkNames case_number fault stall.
Definition at_ (name : string) : path := components (lit name).
Definition num (name : string) : N := fold_left (fun a c => a * 256 + c) (lit name) 1.

Definition case_data : bytes := [x68; x65; x6c; x6c; x6f].
Definition case_junk : bytes := [x6a; x75; x6e; x6b].
(** A file, a link to it, a file that is not an encrypted one, and a directory. *)
Definition case_fs : fs := mkFs
  (fun s => if s =? num "notes" then Some (EFile 1) else if s =? num "link" then Some (ELink (Some (num "notes")))
            else if s =? num "junk.rypt" then Some (EFile 2) else if s =? num "dir" then Some EDir else None)
  (fun i => if i =? 1 then Some (mkNode true case_data 1) else if i =? 2 then Some (mkNode true case_junk 1) else None).
(** The interface, after the command line was read. *)
Definition case_ui : ui := mkUi (Some []) false false (-1) false None [].
Definition case_world : world := mkWorld case_fs [] case_ui [] [].

Definition case_subs : list (N * cred) := [(1, Password [x70])].
Definition case_cred : cred := Complex case_subs 1 1.
Definition case_enc : direction_opts := DoEncrypt case_cred false.
Definition case_dec : direction_opts := DoDecrypt [Password [x70]].
Definition case_stream (i o : string) : io_stream := mkStream (IFile (at_ i)) (Ok (OFile (at_ o))).

Lemma case_files s i : f_entries case_fs s = Some (EFile i) -> (s = num "notes" /\ i = 1) \/ (s = num "junk.rypt" /\ i = 2).
Proof.
  cbn [case_fs f_entries]. destruct (N.eqb_spec s (num "notes")) as [->|_]; [intros [= <-]; auto|]. destruct (s =? _); [discriminate|].
  destruct (N.eqb_spec s (num "junk.rypt")) as [->|_]; [intros [= <-]; auto|]. destruct (s =? _); discriminate.
Qed.
Lemma case_wf_fs : wf_fs case_fs.
Proof.
  split.
  - intros s i E. apply case_files in E as [[-> ->]|[-> ->]]; (eexists; split; [reflexivity|cbn; lia]).
  - intros s t i n E E' D. apply case_files in E as [[-> ->]|[-> ->]]; apply case_files in E' as [[-> X]|[-> X]]; try contradiction; discriminate X.
Qed.
Lemma case_spacious : spacious case_fs.
Proof.
  intros l. exists (N.succ (2 + fold_right N.max 0 l)). split.
  - split.
    + cbn [case_fs f_nodes]. destruct (N.eqb_spec (N.succ (2 + fold_right N.max 0 l)) 1); [lia|]. destruct (N.eqb_spec (N.succ (2 + fold_right N.max 0 l)) 2); [lia|]. reflexivity.
    + intros t E. apply case_files in E as [[_ E]|[_ E]]; lia.
  - intros I. assert (K : forall x, In x l -> x <= fold_right N.max 0 l).
    { clear I. induction l as [|y l IH]; intros x []; cbn [fold_right]; [subst; lia|]. specialize (IH x H). lia. }
    specialize (K _ I). lia.
Qed.
Lemma case_plain : plain_file case_fs (num "notes") case_data.
Proof. exists 1. split; reflexivity. Qed.

Definition case_opts : encrypt_options := mkEncryptOptions case_subs 1 1 false.
Lemma case_wf_cred : wf_cred (expression case_opts).
Proof. unfold case_opts, expression, case_subs. cbn. repeat (constructor; try reflexivity); cbn; lia. Qed.
Lemma case_header : exists ser cod chunk, encrypt_header toy_lib case_opts some_random = Ok (ser, cod, chunk) /\ lenN ser <= MAX_HEADER_LEN.
Proof.
  assert (K : match encrypt_header toy_lib case_opts some_random with Ok (ser, _, _) => lenN ser <=? MAX_HEADER_LEN | _ => false end = true) by (vm_compute; reflexivity).
  destruct (encrypt_header toy_lib case_opts some_random) as [[[ser cod] chunk]|e|]; try discriminate K. exists ser, cod, chunk. split; [reflexivity|]. apply N.leb_le, K.
Qed.

Lemma case_convertible b : convertible toy_lib case_enc b.
Proof.
  apply convertible_encrypt; [exact toy_lib_ok|]. intros er R. destruct case_header as (ser0 & cod0 & chunk0 & E0 & L0).
  destruct (proj2 (encrypt_header_accepts toy_lib case_opts er R case_wf_cred)) as [[[ser cod] chunk] E].
  { exists toy_cs. split; [reflexivity|]. cbn. repeat split; lia. }
  exists ser, cod, chunk. split; [exact E|].
  destruct (header_shape toy_lib toy_lib case_opts case_opts some_random er ser0 cod0 chunk0 ser cod chunk) as (h & h' & -> & -> & _ & _ & Re & _);
    auto using toy_lib_ok, some_random_ok, case_wf_cred, same_shape_refl.
  unfold lenN in *. rewrite <- (redact_length _ _ Re). exact L0.
Qed.

Lemma plain_unique f s b b' : plain_file f s b -> plain_file f s b' -> b = b'.
Proof. intros (i & A & B) (j & A' & B'). assert (i = j) by congruence. subst j. congruence. Qed.

(** ** One file is encrypted and removed *)

Lemma case_ready fault stall o : o <> "notes"%string -> f_entries case_fs (num o) = None -> at_ o = [Normal (lit o)] ->
  ready (case_names fault stall) toy_lib case_enc case_fs (case_stream "notes" o).
Proof.
  intros _ N A. exists (at_ "notes"), (num "notes"), case_data, (at_ o), (num o). split; [reflexivity|]. split; [reflexivity|]. split; [exact case_plain|].
  split; [apply case_convertible|]. split; [reflexivity|]. split; [unfold case_names; cbn [entry_number]; rewrite A; reflexivity|exact N].
Qed.
Lemma case_single (A : Type) (x y z : A) l1 l2 l3 : [x] = l1 ++ y :: l2 ++ z :: l3 -> False.
Proof. intros E. apply (f_equal (@length A)) in E. rewrite app_length in E. cbn [length] in E. rewrite app_length in E. cbn [length] in E. lia. Qed.
Lemma case_one policy : policy <> PromptUser -> exists w',
  crypt_streams (case_names false false) toy_lib [case_stream "notes" "notes.rypt"] policy false case_enc case_world (Ok tt) w' /\
  has_conversion (case_names false false) toy_lib case_enc case_data (w_fs w') (at_ "notes.rypt") /\
  (policy = DeleteFiles -> f_entries (w_fs w') (num "notes") = None).
Proof.
  intros Np. destruct (total_crypt (case_names false false) toy_lib toy_lib_ok [case_stream "notes" "notes.rypt"] policy false case_enc case_world case_spacious) as ((r & w' & H) & _).
  destruct (crypt_ready (case_names false false) toy_lib toy_lib_ok eq_refl _ _ _ _ _ _ H case_wf_fs eq_refl case_spacious) as [[_ X]|(A & B & C)].
  - intros st [<-|[]]. apply case_ready; [discriminate|reflexivity..].
  - intros l1 st l2 st' l3 q q' t E. destruct (case_single _ _ _ _ _ _ _ E).
  - discriminate X.
  - destruct A as [->|[A _]]; [|contradiction]. exists w'. split; [exact H|]. split.
    + destruct (B _ (or_introl eq_refl)) as (p & s & b & q & Ei & Es & Pb & Eo & Hc). injection Ei as <-. injection Eo as <-. injection Es as <-.
      assert (b = case_data) as <-; [|exact Hc]. exact (plain_unique case_fs (num "notes") _ _ Pb case_plain).
    + intros E. eapply (C E); [left; reflexivity|reflexivity|reflexivity].
Qed.

(** ** Two files: a link, which is refused, and a plain file *)

Lemma case_enc_calm streams policy force w w' : (forall st, In st streams -> s_input st <> IStdin /\ s_output st <> Panic) ->
  ~ crypt_streams (case_names false false) toy_lib streams policy force case_enc w Panic w'.
Proof.
  intros Hs H. apply crypt_panic in H as (st & I & [K|[[K _]|[K|(er & src & snk & snk' & Er & Cv & _)]]]); [discriminate K|destruct (proj1 (Hs st I) K)|destruct (proj2 (Hs st I) K)| |left; intros st I; apply Hs, I].
  - apply (conversion_panic toy_lib toy_lib_ok) in Cv; [|exact Er]. unfold case_enc, case_cred in Cv.
    apply (encrypt_header_panic toy_lib case_opts er Er case_wf_cred) in Cv. cbn in Cv. destruct Cv as [Cv|[[]|[]]]. change (total_shares _) with 1 in Cv. vm_compute in Cv. congruence.
Qed.
Definition case_both : list io_stream := [case_stream "link" "link.rypt"; case_stream "notes" "notes.rypt"].
Lemma case_both_distinct b b' : distinct_outputs (case_names b b') case_both.
Proof.
  intros l1 st l2 st' l3 q q' t E Eo Eo' Et. destruct l1 as [|x l1].
  - injection E as <- E. destruct l2 as [|y l2]; [|injection E as <- E; destruct l2; discriminate E]. injection E as <- _. injection Eo as <-. injection Eo' as <-.
    vm_compute in Et. injection Et as <-. vm_compute. discriminate.
  - injection E as <- E. destruct l1 as [|y l1]; [injection E as <- E; destruct l2; discriminate E|]. injection E as _ E. destruct l1; discriminate E.
Qed.
Lemma case_link_not_plain b : ~ plain_file case_fs (num "link") b.
Proof. intros (i & E & _). discriminate E. Qed.
Lemma case_two : exists w',
  crypt_streams (case_names false false) toy_lib case_both DeleteFiles false case_enc case_world (Err CComposite) w' /\
  has_conversion (case_names false false) toy_lib case_enc case_data (w_fs w') (at_ "notes.rypt") /\
  f_entries (w_fs w') (num "link") = Some (ELink (Some (num "notes"))) /\ f_entries (w_fs w') (num "link.rypt") = None.
Proof.
  set (E := case_names false false).
  destruct (total_crypt E toy_lib toy_lib_ok case_both DeleteFiles false case_enc case_world case_spacious) as ((r & w' & H) & _).
  destruct (not_plain E toy_lib toy_lib_ok _ _ _ _ _ _ (case_stream "link" "link.rypt") (at_ "link") (num "link") H case_wf_fs eq_refl) as (A & B & C);
    [left; reflexivity|reflexivity|reflexivity|discriminate|exact case_link_not_plain|].
  specialize (C (case_both_distinct false false) (at_ "link.rypt") (num "link.rypt") eq_refl eq_refl eq_refl).
  assert (r = Err CComposite) as ->.
  { destruct r as [[]|e|]; [contradiction A; reflexivity| |].
    - destruct (crypt_errors E toy_lib _ _ _ _ _ _ H eq_refl) as [->|[X _]]; [reflexivity|discriminate X].
    - exfalso. eapply case_enc_calm; [|exact H]. intros st [<-|[<-|[]]]; split; discriminate. }
  exists w'. split; [exact H|].
  assert (Rf : w_refused w' = []) by exact (crypt_refused E toy_lib eq_refl _ _ _ _ _ _ _ H).
  destruct (crypt_without E toy_lib toy_lib_ok case_enc DeleteFiles [] (case_stream "link" "link.rypt") [case_stream "notes" "notes.rypt"] case_world _ w' H eq_refl)
    as [(q & b & f & Eo & If & _ & (t & c & Et & (i & Ei & _) & _))|[(q & t & _ & _ & I)|(_ & r' & v' & H' & [Q1 Q2] & _)]]; try discriminate.
  - exfalso. injection Eo as <-. specialize (C f If). assert (t = num "link.rypt") as -> by (vm_compute in Et; injection Et as <-; reflexivity). congruence.
  - exfalso. rewrite Rf in I. destruct I.
  - split; [|split].
    + destruct (crypt_ready E toy_lib toy_lib_ok eq_refl _ _ _ _ _ _ H' case_wf_fs eq_refl case_spacious) as [[_ X]|(_ & Y & _)].
      * intros st [<-|[]]. apply case_ready; [discriminate|reflexivity..].
      * intros l1 st l2 st' l3 q q' t X. destruct (case_single _ _ _ _ _ _ _ X).
      * discriminate X.
      * destruct (Y _ (or_introl eq_refl)) as (p & s & b & q & Ei & Es & Pb & Eo & (t & c & Et & (i & P1 & P2) & Ic)). injection Ei as <-. injection Eo as <-. injection Es as <-.
        assert (b = case_data) as <- by exact (plain_unique case_fs (num "notes") _ _ Pb case_plain).
        exists t, c. split; [exact Et|]. split; [|exact Ic]. exists i. rewrite Q1, Q2 || rewrite <- Q1, <- Q2. split; assumption.
    + apply (B (w_fs w')). left. reflexivity.
    + apply C. left. reflexivity.
Qed.

(** ** A file that cannot be decrypted *)

Lemma case_junk_header src rest : case_junk = flat src ++ rest -> forall x, read_header src <> Ok x.
Proof.
  intros E [[h n] s'] H. apply read_header_sound in H as (_ & F & _). rewrite F in E. apply (f_equal (@length byte)) in E. rewrite !app_length in E.
  unfold frame_of in E. rewrite !app_length in E. cbn in E. lia.
Qed.
Lemma case_junk_moments E w' r g : wf_fs case_fs -> crypt_streams E toy_lib [case_stream "junk.rypt" "junk"] KeepFiles false case_dec case_world r w' ->
  In g (moments w') -> intact case_fs g (num "junk.rypt").
Proof.
  intros W H Ig. destruct (existing_files E toy_lib toy_lib_ok _ _ _ _ _ _ H W eq_refl g (num "junk.rypt") Ig) as [K|([D|[D _]] & _)]; [discriminate|exact K|discriminate D..].
Qed.
Lemma case_bad : exists w',
  crypt_streams (case_names false false) toy_lib [case_stream "junk.rypt" "junk"] KeepFiles false case_dec case_world (Err CComposite) w' /\
  f_entries (w_fs w') (num "junk") = None.
Proof.
  set (E := case_names false false).
  destruct (total_crypt E toy_lib toy_lib_ok [case_stream "junk.rypt" "junk"] KeepFiles false case_dec case_world case_spacious) as ((r & w' & H) & _).
  assert (r = Err CComposite) as ->.
  { destruct r as [[]|e|].
    - exfalso. destruct (reported_success E toy_lib toy_lib_ok _ _ _ _ _ H case_wf_fs _ (or_introl eq_refl)) as [X|(q & t & b & f & _ & _ & _ & _ & (t' & c & _ & _ & (er & src & room & fl & snk & _ & _ & Fb & C & _)) & _ & Hp)]; [discriminate X|].
      destruct (Hp _ eq_refl) as (s & Es & _ & Hb). assert (b = case_junk) as ->.
      { apply (plain_unique case_fs (num "junk.rypt")); [|exists 2; split; reflexivity]. assert (s = num "junk.rypt") as -> by (vm_compute in Es; injection Es as <-; reflexivity). apply Hb. discriminate. }
      cbn [conversion case_dec] in C. unfold decrypt_stream in C. destruct (read_header src) as [x| |] eqn:Eh; [|destruct C as [X _]; discriminate X..].
      eapply case_junk_header; [|exact Eh]. rewrite Fb. symmetry. apply app_nil_r.
    - destruct (crypt_errors E toy_lib _ _ _ _ _ _ H eq_refl) as [->|[X _]]; [reflexivity|discriminate X].
    - exfalso. apply crypt_panic in H as H'; [|left; intros st [<-|[]]; discriminate].
      destruct H' as (st & [<-|[]] & [K|[[K _]|[K|(er & src & snk & snk' & Er & Cv & Dl)]]]); try discriminate K.
      destruct (conversion_panic toy_lib toy_lib_ok _ _ _ _ _ Er Cv) as (ser & k & rest & Eh & _).
      destruct (Dl eq_refl) as (f & If & (s & t & Es & Et & Hn)). pose proof (case_junk_moments _ _ _ _ case_wf_fs H If) as [I1 I2].
      assert (s = num "junk.rypt") as -> by (vm_compute in Es; injection Es as <-; reflexivity).
      assert (Ef : f_entries f (num "junk.rypt") = Some (EFile 2)) by (rewrite I1; reflexivity).
      assert (t = num "junk.rypt") as ->. { unfold max_links in Et. cbn [follow] in Et. rewrite Ef in Et. congruence. }
      destruct (Hn 2 (mkNode true case_junk 1) Ef) as (rs & Er'); [rewrite (I2 2 eq_refl); reflexivity|reflexivity|]. eapply case_junk_header; [exact Er'|exact Eh]. }
  exists w'. split; [exact H|]. assert (Rf : w_refused w' = []) by exact (crypt_refused E toy_lib eq_refl _ _ _ _ _ _ _ H).
  destruct (f_entries (w_fs w') (num "junk")) as [e|] eqn:Ee; [exfalso|reflexivity].
  destruct (new_files E toy_lib toy_lib_ok _ _ _ _ _ _ H case_wf_fs) as [_ K]. destruct (K ltac:(discriminate) (num "junk")) as [X|[X|(st & q & b & [<-|[]] & Eo & _ & (t & c & _ & _ & (er & src & room & fl & snk & _ & _ & Fb & C & _)) & Hp)]].
  - rewrite Ee. discriminate.
  - apply X. reflexivity.
  - rewrite Rf in X. destruct X.
  - destruct (Hp _ eq_refl) as (s & f & Es & If & (i & P1 & P2)). pose proof (case_junk_moments _ _ _ _ case_wf_fs H If) as [I1 I2].
    assert (s = num "junk.rypt") as -> by (vm_compute in Es; injection Es as <-; reflexivity). rewrite I1 in P1. injection P1 as <-. rewrite (I2 2 eq_refl) in P2. injection P2 as <-.
    cbn [conversion case_dec] in C. unfold decrypt_stream in C. destruct (read_header src) as [x| |] eqn:Eh; [|destruct C as [X _]; discriminate X..].
    eapply case_junk_header; [|exact Eh]. rewrite Fb. symmetry. apply app_nil_r.
Qed.

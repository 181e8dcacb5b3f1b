(** Runs for the examples of PropFlow. *)
From Coq.Strings Require Import Byte String.
From Coq Require Import List NArith ZArith Bool PeanoNat Lia.
From Verif Require Import Base BaseFacts Shamir Errors Io HeaderIo HeaderIoSpec StreamSpec Text Util CliErrors Getopts Crypto HeaderCrypto CredSpec FileCrypto KeyFiles Ui UiSpec Paths PathSpec PathProofs CliCreds Cli CliSpec OptSpec OptProofs CmdSpec CmdProofs Progress Fs Commands FsSpec
  HeaderCryptoProofs4 FsProofs12 ToyCrypto FsCases FsCases2 FlowSpec FlowProofs FlowProofs2 FlowProofs3 FlowProofs4.
Import ListNotations.
Local Open Scope N_scope.

(** A directory with two files. *)
Definition flow_fs (n1 : string) (c1 : bytes) (n2 : string) (c2 : bytes) : fs := mkFs
  (fun s => if s =? num n1 then Some (EFile 1) else if s =? num n2 then Some (EFile 2) else None)
  (fun i => if i =? 1 then Some (mkNode true c1 1) else if i =? 2 then Some (mkNode true c2 1) else None).
Definition flow_world (n1 : string) (c1 : bytes) (n2 : string) (c2 : bytes) (u : ui) : world := mkWorld (flow_fs n1 c1 n2 c2) [] u [] [].
Definition flow_names : names := case_names false false.

Section Two.
Variables (n1 n2 : string) (c1 c2 : bytes).
Hypothesis D : (num n2 =? num n1) = false.
Lemma flow_files s i : f_entries (flow_fs n1 c1 n2 c2) s = Some (EFile i) -> (s = num n1 /\ i = 1) \/ (s = num n2 /\ i = 2).
Proof. cbn [flow_fs f_entries]. destruct (N.eqb_spec s (num n1)) as [X|_]; [intros [= <-]; auto|]. destruct (N.eqb_spec s (num n2)) as [X|_]; [intros [= <-]; auto|discriminate]. Qed.
Lemma flow_wf : wf_fs (flow_fs n1 c1 n2 c2).
Proof.
  split.
  - intros s i E. apply flow_files in E as [[_ ->]|[_ ->]]; (eexists; split; [reflexivity|cbn; lia]).
  - intros s t i n E E' Ne. apply flow_files in E as [[-> ->]|[-> ->]]; apply flow_files in E' as [[-> X]|[-> X]]; try contradiction; discriminate X.
Qed.
Lemma flow_spacious : spacious (flow_fs n1 c1 n2 c2).
Proof.
  intros l. exists (N.succ (2 + fold_right N.max 0 l)). split.
  - split.
    + cbn [flow_fs f_nodes]. destruct (N.eqb_spec (N.succ (2 + fold_right N.max 0 l)) 1); [lia|]. destruct (N.eqb_spec (N.succ (2 + fold_right N.max 0 l)) 2); [lia|]. reflexivity.
    + intros t E. apply flow_files in E as [[_ E]|[_ E]]; lia.
  - intros I. assert (K : forall x, In x l -> x <= fold_right N.max 0 l).
    { clear I. induction l as [|y l IH]; intros x []; cbn [fold_right]; [subst; lia|]. specialize (IH x H). lia. }
    specialize (K _ I). lia.
Qed.
Lemma flow_first : plain_file (flow_fs n1 c1 n2 c2) (num n1) c1.
Proof. exists 1. split; [|reflexivity]. cbn [flow_fs f_entries]. rewrite N.eqb_refl. reflexivity. Qed.
Lemma flow_second : plain_file (flow_fs n1 c1 n2 c2) (num n2) c2.
Proof. exists 2. split; [|reflexivity]. cbn [flow_fs f_entries]. rewrite D, N.eqb_refl. reflexivity. Qed.
Lemma flow_in_order u : u_room u = None -> in_order flow_names (flow_world n1 c1 n2 c2 u).
Proof. intros R. exact (conj flow_wf (conj flow_spacious (conj eq_refl (conj eq_refl R)))). Qed.
Lemma flow_free (n3 : string) : (num n3 =? num n1) = false -> (num n3 =? num n2) = false -> at_ n3 = [Normal (lit n3)] -> free_names flow_names (flow_fs n1 c1 n2 c2) [at_ n3].
Proof.
  intros A B E. exists [num n3]. split; [cbn [map]; rewrite E; reflexivity|]. split; [constructor; [intros []|constructor]|].
  intros t [<-|[]]. cbn [flow_fs f_entries]. rewrite A, B. reflexivity.
Qed.
End Two.

Lemma flow_at name f c : at_ name = [Normal (lit name)] -> plain_file f (num name) c -> plain flow_names f (lit name) c.
Proof. intros E P. exists (num name). split; [|exact P]. change (components (lit name)) with (at_ name). cbn [flow_names case_names entry_number]. rewrite E. reflexivity. Qed.
Lemma flow_there name f c : plain flow_names f (lit name) c -> all_there flow_names f [lit name].
Proof. intros (s & E & (i & P & _)) a [<-|[]]. exists s. split; [exact E|congruence]. Qed.
Lemma plain_files_in (e : names) f name c : plain e f name c -> files_in e f name = Some c.
Proof. intros (s & E & P). exact (plain_content _ _ _ _ _ E P). Qed.
Lemma flow_digest m : case_digest m <> [].
Proof. discriminate. Qed.
Lemma options_mean args occs free : parse_options args = Ok (mkMatches occs free) -> means 0 args occs free.
Proof. intros P. apply options_read in P. apply P. Qed.

(** The user interface: nobody types; or somebody types these lines. *)
Definition flow_quiet : ui := mkUi (Some []) false false 0 false None [].
Definition flow_typing (s : source) : ui := mkUi (Some s) true true 0 true None [].
Definition flow_typed : source := [RData [x61; x0a]; RData [x61; x0a]].
Lemma flow_types s : types (RData [x61; x0a] :: s) [97] s.
Proof.
  exists [97]. split; [constructor; [left; reflexivity|constructor]|]. split; [intros [H|[]]; discriminate H|]. split; [repeat constructor|].
  right. split; [reflexivity|]. intros [|? [|]]; discriminate.
Qed.
Lemma flow_types_twice : types_password (flow_typing flow_typed) true [97].
Proof. exists flow_typed, [[97]; [97]], []. split; [reflexivity|]. split; [|apply acc_encrypt; discriminate]. eapply r_line; [apply flow_types|]. eapply r_line; [apply flow_types|constructor]. Qed.
Lemma flow_types_once : types_password (flow_typing flow_typed) false [97].
Proof. exists flow_typed, [[97]], [RData [x61; x0a]]. split; [reflexivity|]. split; [|apply acc_decrypt; discriminate]. eapply r_line; [apply flow_types|constructor]. Qed.
Lemma flow_typist s : typist (flow_typing s).
Proof. repeat split. Qed.

Ltac no_option := let x := fresh in let I := fresh in let E := fresh in intros (x & I & E); cbn in I; repeat (destruct I as [I|I]; [rewrite <- I in E; discriminate E|]); exact I.
Ltac ask := let o := fresh in let x := fresh in let Hx := fresh in let E := fresh in let J := fresh in
  intros o (x & Hx & E) J; cbn in Hx; repeat (destruct Hx as [Hx|Hx]; [subst x; cbn in E; subst o; cbn in J; intuition discriminate|]); exact Hx.

Definition flow_generate := [lit "-g"; lit "me"].
Definition flow_generate_occs := [mkOcc 0 OGenKeypair None].
Lemma flow_asks_keys : asks_for_keys flow_generate_occs.
Proof. split; [exists (mkOcc 0 OGenKeypair None); split; [left; reflexivity|reflexivity]|ask]. Qed.
Definition flow_encrypt := [lit "-K"; lit "--public-key"; lit "me.pub"; lit "notes"].
Definition flow_encrypt_occs := [mkOcc 0 OKeepInputs None; mkOcc 1 OPublicKey (Some (lit "me.pub"))].
Lemma flow_asks_encrypt : asks_to_encrypt flow_encrypt_occs.
Proof. ask. Qed.
Lemma flow_public : only_key OPublicKey (lit "me.pub") flow_encrypt_occs.
Proof. exists [mkOcc 0 OKeepInputs None], 1%nat, []. split; [reflexivity|]. intros x [<-|[]]. cbn. unfold key_option. cbn. intuition discriminate. Qed.
Definition flow_decrypt := [lit "-d"; lit "-K"; lit "--private-key"; lit "me"; lit "notes.rypt"].
Definition flow_decrypt_occs := [mkOcc 0 ODecrypt None; mkOcc 1 OKeepInputs None; mkOcc 2 OPrivateKey (Some (lit "me"))].
Lemma flow_asks_decrypt : asks_to_decrypt flow_decrypt_occs.
Proof. split; [exists (mkOcc 0 ODecrypt None); split; [left; reflexivity|reflexivity]|ask]. Qed.
Lemma flow_private : only_key OPrivateKey (lit "me") flow_decrypt_occs.
Proof. exists [mkOcc 0 ODecrypt None; mkOcc 1 OKeepInputs None], 2%nat, []. split; [reflexivity|]. intros x [<-|[<-|[]]]; cbn; unfold key_option; cbn; intuition discriminate. Qed.
Definition flow_encrypt_typed := [lit "-K"; lit "notes"].
Definition flow_encrypt_typed_occs := [mkOcc 0 OKeepInputs None].
Lemma flow_asks_encrypt_typed : asks_to_encrypt flow_encrypt_typed_occs /\ no_key flow_encrypt_typed_occs.
Proof. split; [ask|]. intros o K (x & [<-|[]] & E). cbn in E. subst o. unfold key_option in K. cbn in K. intuition discriminate. Qed.
Definition flow_decrypt_typed := [lit "-d"; lit "-K"; lit "notes.rypt"].
Definition flow_decrypt_typed_occs := [mkOcc 0 ODecrypt None; mkOcc 1 OKeepInputs None].
Lemma flow_asks_decrypt_typed : asks_to_decrypt flow_decrypt_typed_occs /\ no_key flow_decrypt_typed_occs.
Proof.
  split; [split; [exists (mkOcc 0 ODecrypt None); split; [left; reflexivity|reflexivity]|ask]|].
  intros o K (x & [<-|[<-|[]]] & E); cbn in E; subst o; unfold key_option in K; cbn in K; intuition discriminate.
Qed.

Lemma flow_word (a : N) t : a <> 45 -> is_word (a :: t).
Proof. intros N a' E. congruence. Qed.
Lemma flow_argument s : (exists a t, lit s = a :: t /\ a <> 45) -> trim (lit s) = lit s -> file_argument (lit s).
Proof.
  intros (a & t & E & N) T. assert (Nd : lit s <> lit "-") by (rewrite E; intros [= X]; contradiction).
  split; [rewrite E; apply flow_word, N|]. split; [rewrite T; exact Nd|exact Nd].
Qed.
Lemma flow_notes : file_argument (lit "notes").
Proof. apply flow_argument; [exists 110, (lit "otes"); split; [reflexivity|discriminate]|vm_compute; reflexivity]. Qed.
Lemma flow_notes_rypt : file_argument (lit "notes.rypt").
Proof. apply flow_argument; [exists 110, (lit "otes.rypt"); split; [reflexivity|discriminate]|vm_compute; reflexivity]. Qed.
Lemma flow_me : public_name (lit "me") (lit "me.pub").
Proof. destruct (public_ok (lit "me") [] (lit "me") eq_refl) as (n & P & F). assert (X : n = lit "me.pub"); [|rewrite <- X; exact P]. unfold is_file in F. vm_compute in F. injection F as <-. reflexivity. Qed.
Lemma flow_no_dot : ~ ends_in_dot (lit "notes").
Proof. intros (a & E). apply (f_equal (@rev N)) in E. rewrite rev_app_distr in E. discriminate E. Qed.
Lemma flow_no_rypt : ~ exists a, a <> [] /\ lit "notes" = a ++ lit ".rypt".
Proof. intros (a & _ & E). apply (f_equal (@rev N)) in E. rewrite rev_app_distr in E. discriminate E. Qed.
Lemma flow_succeeds e lib sha512 args occs free w w' : wf_fs (w_fs w) -> parse_options args = Ok (mkMatches occs free) -> ~ given OForce occs -> ~ given OStream occs -> ~ given OSuffix occs ->
  main e lib sha512 (files_in e (w_fs w)) args false false false w 0 w' -> succeeds e lib sha512 args occs free w w'.
Proof. intros W P A B C H. repeat (split; [first [assumption|apply options_mean, P]|]). exists false, false, false. exact H. Qed.

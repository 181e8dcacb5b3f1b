(** C84: the permissions of files. *)
From Coq.Strings Require Import Byte String.
From Coq Require Import List NArith ZArith Bool Lia.
From Verif Require Import Base Shamir Errors Io Text Util CliErrors Crypto HeaderCrypto HeaderIoSpec StreamSpec KeyFiles ToyCrypto Ui Paths Cli Fs Commands FsSpec FsCases FsCases2 Program Calls CallSpec CallProofs4 PropFs PropFs2 PropCalls Modes ModesProofs.
Import ListNotations.
Local Open Scope N_scope.

(** The permissions are rw-rw-rw- without what the umask takes away. *)
Definition usual_permissions (umask mode : N) : Prop :=
  forall b, N.testbit mode b = true <-> (In b [8; 7; 5; 4; 2; 1] /\ N.testbit umask b = false).
Lemma created_usual umask : usual_permissions umask (created_mode umask).
Proof.
  intros b. unfold created_mode. rewrite N.ldiff_spec, andb_true_iff, negb_true_iff.
  assert (K : N.testbit 438 b = true <-> In b [8; 7; 5; 4; 2; 1]).
  { destruct (N.leb_spec b 8) as [L|L].
    - assert (C : In b [0; 1; 2; 3; 4; 5; 6; 7; 8]) by (cbn [In]; lia). repeat (destruct C as [<-|C]; [vm_compute; intuition discriminate|]). destruct C.
    - split; intros X; [|exfalso; cbn [In] in X; lia]. exfalso. rewrite N.bits_above_log2 in X; [discriminate X|]. eapply N.le_lt_trans; [|exact L]. vm_compute. discriminate. }
  rewrite K. reflexivity.
Qed.

(** Whatever a command does and wherever it is cut off: each file that is there at the end has the permissions that it had
    at the start; or its name was free at the start, or has become free by a removal, and it has the permissions of new files. *)
Theorem C84_permissions : forall umask (entry_of : names) lib sha512 c w m r h w' m' s i,
  command_run umask entry_of lib sha512 c w m r h w' m' -> f_entries (w_fs w') s = Some (EFile i) ->
  (f_entries (w_fs w) s = Some (EFile i) /\ m' i = m i) \/
  ((f_entries (w_fs w) s = None \/ exists p, entry_of p = Some s /\ In (SRemove p (Ok tt)) h) /\ usual_permissions umask (m' i)).
Proof.
  intros umask e lib sha512 c w m r h w' m' s i [_ H] E. destruct (run_course umask e _ _ _ _ _ H s i E) as [K|[A B]]; [left; exact K|].
  right. split; [exact A|]. rewrite B. apply created_usual.
Qed.
Print Assumptions C84_permissions.

(** A file that is not removed keeps its permissions, also if it is overwritten. *)
Theorem C84_existing_files_keep_their_permissions : forall umask (entry_of : names) lib sha512 c w m r h w' m' s i,
  command_run umask entry_of lib sha512 c w m r h w' m' -> f_entries (w_fs w) s = Some (EFile i) ->
  (forall p, entry_of p = Some s -> ~ In (SRemove p (Ok tt)) h) ->
  f_entries (w_fs w') s = Some (EFile i) /\ m' i = m i.
Proof. intros umask e lib sha512 c w m r h w' m' s i [_ H]. exact (run_stays umask e _ _ _ _ _ H s i). Qed.
Print Assumptions C84_existing_files_keep_their_permissions.

(** These are the runs of Commands. *)
Theorem C84_runs : forall umask (entry_of : names) lib sha512 c w m r w',
  run_command entry_of lib sha512 c w r w' -> exists h m', command_run umask entry_of lib sha512 c w m (Some r) h w' m'.
Proof.
  intros umask e lib sha512 c w m r w' H. destruct (C66_runs_of_the_commands e lib sha512 c w r w' H) as (h & A & B).
  destruct (modes_exist umask e _ _ _ B m) as (m' & K). exists h, m'. split; assumption.
Qed.
Print Assumptions C84_runs.

(** Who wants private keys and decrypted files to be private must say so with the umask: 0o077 leaves nothing to others. *)
Corollary private_umask umask mode : usual_permissions umask mode -> (forall b, b < 6 -> N.testbit umask b = true) -> forall b, b < 6 -> N.testbit mode b = false.
Proof. intros U M b B. destruct (N.testbit mode b) eqn:E; [|reflexivity]. apply U in E as [_ E]. rewrite (M b B) in E. discriminate E. Qed.
Theorem C84_private_umask : forall umask (entry_of : names) lib sha512 c w m r h w' m' s i,
  command_run umask entry_of lib sha512 c w m r h w' m' -> f_entries (w_fs w) s = None -> f_entries (w_fs w') s = Some (EFile i) ->
  (forall b, b < 6 -> N.testbit umask b = true) -> forall b, b < 6 -> N.testbit (m' i) b = false.
Proof.
  intros umask e lib sha512 c w m r h w' m' s i H N E. destruct (C84_permissions _ _ _ _ _ _ _ _ _ _ _ _ _ H E) as [[X _]|[_ U]]; [congruence|]. exact (private_umask _ _ U).
Qed.
Print Assumptions C84_private_umask.

(** Without that, private keys are not: after [rypt -g me] with the usual umask 022 everybody can read the private key. *)
Theorem C84_private_keys_are_private_refuted : exists umask (entry_of : names) lib sha512 ks p t i w m h w' m' public_key private_key public_text private_text,
  command_run umask entry_of lib sha512 (GenerateKeyPair [ks] false) w m (Some (Ok tt)) h w' m' /\
  k_private ks = OFile p /\ entry_of p = Some t /\ f_entries (w_fs w) t = None /\ f_entries (w_fs w') t = Some (EFile i) /\
  key_pair_texts sha512 public_key private_key = Ok (public_text, private_text) /\ plain_file (w_fs w') t (utf8 private_text) /\
  umask = 18 (* 0o022 *) /\ N.testbit (m' i) 2 = true (* readable for others *).
Proof.
  destruct case_generated as (w' & H). destruct (C84_runs 18 (case_names false false) toy_lib case_digest (GenerateKeyPair [case_pair] false) case_world (fun _ => 0) (Ok tt) w' H) as (h & m' & K).
  destruct (C55_generated_pairs_are_complete _ _ _ _ _ _ H case_pair (or_introl eq_refl)) as (cs & seed & pub & priv & _ & Et & _ & P & _).
  destruct (P (at_ "me") eq_refl) as (t & Ep & N & Pl). pose proof Pl as (i & Ei & _).
  destruct (C84_permissions _ _ _ _ _ _ _ _ _ _ _ _ _ K Ei) as [[X _]|[_ U]]; [congruence|].
  exists 18, (case_names false false), toy_lib, case_digest, case_pair, (at_ "me"), t, i, case_world, (fun _ => 0), h, w', m', (fst (cs_keypair cs seed)), (snd (cs_keypair cs seed)), pub, priv.
  split; [exact K|]. split; [reflexivity|]. split; [exact Ep|]. split; [exact N|]. split; [exact Ei|]. split; [exact Et|]. split; [exact Pl|]. split; [reflexivity|].
  apply U. split; [cbn; auto 10|reflexivity].
Qed.
Print Assumptions C84_private_keys_are_private_refuted.

(** And an output does not take over that only the owner may read the input: decrypting copy.rypt with rw------- makes a
    copy with rw-r--r--. *)
Theorem C84_outputs_are_as_private_refuted : exists umask (entry_of : names) lib sha512 st cs w m h w' m' s t i j data,
  command_run umask entry_of lib sha512 (CryptStreams [st] KeepFiles false (DoDecrypt cs)) w m (Some (Ok tt)) h w' m' /\
  (exists p q, s_input st = IFile p /\ entry_of p = Some s /\ s_output st = Ok (OFile q) /\ entry_of q = Some t) /\
  f_entries (w_fs w) s = Some (EFile i) /\ m i = 384 (* 0o600 *) /\
  f_entries (w_fs w') t = Some (EFile j) /\ plain_file (w_fs w') t data /\ N.testbit (m' j) 2 = true.
Proof.
  destruct C57_case as (w1 & c & v1 & _ & _ & _ & H & Pl).
  destruct (C84_runs 18 (case_names false false) toy_lib case_digest (CryptStreams [case_stream "copy.rypt" "copy"] KeepFiles false case_dec) (case_copy c) (fun _ => 384) (Ok tt) v1 H) as (h & m' & K).
  pose proof Pl as (j & Ej & _).
  destruct (C84_permissions _ _ _ _ _ _ _ _ _ _ _ _ _ K Ej) as [[X _]|[_ U]].
  { vm_compute in X. discriminate X. }
  exists 18, (case_names false false), toy_lib, case_digest, (case_stream "copy.rypt" "copy"), [Password [x70]], (case_copy c), (fun _ => 384), h, v1, m', (num "copy.rypt"), (num "copy"), 7, j, case_data.
  split; [exact K|]. split; [exists (at_ "copy.rypt"), (at_ "copy"); repeat split|]. split; [reflexivity|]. split; [reflexivity|]. split; [exact Ej|]. split; [exact Pl|].
  apply U. split; [cbn; auto 10|reflexivity].
Qed.
Print Assumptions C84_outputs_are_as_private_refuted.

(** notes is encrypted and removed, with the umask 077; another file keeps its permissions. *)
Example C84_case : exists h w' m' i, command_run 63 (case_names false false) toy_lib case_digest (CryptStreams [case_stream "notes" "notes.rypt"] DeleteFiles false case_enc) case_world (fun _ => 420) (Some (Ok tt)) h w' m' /\
  f_entries (w_fs case_world) (num "notes.rypt") = None /\ f_entries (w_fs w') (num "notes.rypt") = Some (EFile i) /\ m' i = 384 /\
  f_entries (w_fs w') (num "junk.rypt") = Some (EFile 2) /\ m' 2 = 420.
Proof.
  destruct (case_one DeleteFiles) as (w' & H & C & _); [discriminate|].
  destruct (C84_runs 63 (case_names false false) toy_lib case_digest (CryptStreams [case_stream "notes" "notes.rypt"] DeleteFiles false case_enc) case_world (fun _ => 420) (Ok tt) w' H) as (h & m' & K).
  destruct C as (t & c & Et & (i & Ei & _) & _). assert (t = num "notes.rypt") as -> by (vm_compute in Et; injection Et as <-; reflexivity).
  destruct (run_course 63 (case_names false false) _ _ _ _ _ (proj2 K) _ _ Ei) as [[X _]|[_ U]]; [vm_compute in X; discriminate X|].
  exists h, w', m', i. split; [exact K|]. split; [reflexivity|]. split; [exact Ei|]. split; [exact U|].
  apply (C84_existing_files_keep_their_permissions _ _ _ _ _ _ _ _ _ _ _ (num "junk.rypt") 2 K eq_refl). intros p Ep I. apply in_split in I as (b & a & Eh).
  destruct (C66_removals toy_lib [case_stream "notes" "notes.rypt"] DeleteFiles false case_enc case_ui (Some (Ok tt)) h (w_ui w') b p (Ok tt) toy_lib_ok (proj1 K) (ex_intro _ a Eh)) as [(st & rd & wr & src & out & e & new & h0 & [<-|[]] & (X & _) & _)|[(st & o & rd & wr & src & out & h0 & h1 & [<-|[]] & X & _) _]];
    injection X as <-; vm_compute in Ep; discriminate Ep.
Qed.

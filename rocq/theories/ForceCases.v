(** Runs with force in the small file system of FsCases, for the examples of PropForce. *)
From Coq.Strings Require Import Byte String.
From Coq Require Import List NArith ZArith Bool PeanoNat Lia.
From Verif Require Import Base BaseFacts Shamir Errors Io HeaderIo HeaderIoSpec StreamSpec Text Util CliErrors Getopts Crypto HeaderCrypto CredSpec FileCrypto Ui UiSpec Paths Cli Fs Commands FsSpec
  FsProofs ConvProofs FsProofs2 FsProofs4 FsProofs8 FsProofs11 FsProofs12 FsProofs13 FsProofs15 ForceSpec ForceProofs ForceProofs2 Proto ToyCrypto FsCases FsCases2.
Import ListNotations.
Local Open Scope N_scope.

Definition forced_stream : io_stream := case_stream "notes" "notes.rypt".
Definition forced_out : N := num "notes.rypt".
Definition forced_names : names := case_names true false.

(** The file is there, and its encryption is not there or a file of its own. *)
Definition forced_ready (f : fs) : Prop :=
  f_entries f (num "notes") = Some (EFile 1) /\ f_nodes f 1 = Some (mkNode true case_data 1) /\
  ((f_entries f forced_out = None /\ unused f 3) \/ exists c, f_entries f forced_out = Some (EFile 3) /\ f_nodes f 3 = Some (mkNode true c 1)).

Lemma forced_opening k n w : forced_ready (w_fs w) -> works (w_ui w) ->
  exists w1, io_try (
    let! _ := io_ui (ignore (ui_println 0 (file_header k n forced_stream))) in
    let! output := io_lift (s_output forced_stream) in
    let! rd := open_input forced_names (s_input forced_stream) true in
    let! wr := open_output forced_names output true in
    io_ret (rd, wr, output_cleanup output)) w (Ok (Ok (ReadNode 1, WriteNode 3, Some (at_ "notes.rypt")))) w1 /\
  created (w_fs w) forced_out 3 [] (w_fs w1) /\ works (w_ui w1).
Proof.
  intros (A & B & O) Wk.
  pose (w0 := set_ui w (snd (ignore (ui_println 0 (file_header k n forced_stream)) (w_ui w)))).
  assert (P : io_ui (ignore (ui_println 0 (file_header k n forced_stream))) w (Ok tt) w0).
  { split; [|reflexivity]. symmetry. apply ignore_ok, println_not_panic. }
  assert (Wk0 : works (w_ui w0)) by exact (sim_works _ _ _ _ (sim_ui _ (act_ignore _ (act_println 0 _))) P Wk).
  assert (F0 : w_fs w0 = w_fs w) by reflexivity. clearbody w0.
  assert (I : open_input forced_names (IFile (at_ "notes")) true w0 (Ok (ReadNode 1)) w0).
  { cbn [open_input]. apply (bind_runs _ _ (ReadNode 1, mkMeta FRegular 1) _ w0).
    - unfold open_file. apply (bind_runs _ _ (ReadNode 1) _ w0).
      + split; [reflexivity|]. right. exists (num "notes"), (num "notes"). split; [reflexivity|]. rewrite F0. split; [unfold max_links; cbn [follow]; rewrite A; reflexivity|].
        left. exists 1. split; [exact A|reflexivity].
      + apply (bind_runs _ _ (mkMeta FRegular 1) _ w0).
        * split; [reflexivity|]. right. exists (num "notes"), (mkMeta FRegular 1). split; [reflexivity|]. rewrite F0. unfold metadata_of. rewrite A, B. auto.
        * apply (bind_runs _ _ tt _ w0); split; reflexivity.
    - do 2 (apply (bind_runs _ _ tt _ w0); [split; reflexivity|]). apply (bind_runs _ _ tt _ w0); split; reflexivity. }
  assert (X : exists w1, open_output forced_names (OFile (at_ "notes.rypt")) true w0 (Ok (WriteNode 3)) w1 /\ created (w_fs w0) forced_out 3 [] (w_fs w1) /\ w_ui w1 = w_ui w0).
  { cbn [open_output]. destruct O as [(O & U)|(c & O & U)].
    - exists (set_fs w0 (add_file (w_fs w0) forced_out 3)). split; [|split; [|reflexivity]].
      + right. exists forced_out, forced_out, 3. split; [reflexivity|]. rewrite F0. split; [unfold max_links; cbn [follow]; rewrite O; reflexivity|]. split; [reflexivity|]. left. auto.
      + split; intros s; reflexivity.
    - exists (set_fs w0 (set_content (w_fs w0) 3 [])). split; [|split; [|reflexivity]].
      + right. exists forced_out, forced_out, 3. split; [reflexivity|]. rewrite F0. split; [unfold max_links; cbn [follow]; rewrite O; reflexivity|]. split; [reflexivity|]. right. exists (mkNode true c 1). auto.
      + cbn [set_fs w_fs]. unfold set_content. rewrite F0, U. split; intros s; cbn [f_entries f_nodes n_regular n_links]; [|reflexivity].
        destruct (N.eqb_spec s forced_out) as [->|_]; [exact O|reflexivity]. }
  destruct X as (w1 & X & C & Ew). exists w1. split; [|split; [rewrite <- F0; exact C|rewrite Ew; exact Wk0]].
  left. exists (Ok (ReadNode 1, WriteNode 3, Some (at_ "notes.rypt"))). split; [discriminate|]. split; [|reflexivity].
  apply (bind_runs _ _ tt _ w0); [exact P|]. apply (bind_runs _ _ (OFile (at_ "notes.rypt")) _ w0); [split; reflexivity|].
  apply (bind_runs _ _ (ReadNode 1) _ w0); [exact I|]. apply (bind_runs _ _ (WriteNode 3) _ w1); [exact X|]. split; reflexivity.
Qed.

(** Converting it, if what is read has the given pieces. *)
Lemma forced_attempt k n w src r0 snk : forced_ready (w_fs w) -> works (w_ui w) ->
  (if ends_in_error src then flat src = [] else flat src = case_data) -> r0 <> Panic ->
  conversion toy_lib case_enc some_random src (mkSink [] None true false) r0 snk ->
  exists w2, attempt forced_names toy_lib k n forced_stream true case_enc w (Ok (conversion_result r0, Some (at_ "notes.rypt"))) w2 /\
  created (w_fs w) forced_out 3 (w_out snk) (w_fs w2) /\ works (w_ui w2).
Proof.
  intros Rd Wk Hs Np C. pose proof Rd as (A & B & _). destruct (forced_opening k n w Rd Wk) as (w1 & Op & Cr & Wk1).
  pose (w2 := set_ui (write_out (WriteNode 3) (w_out snk) w1) (w_ui (write_out (WriteNode 3) (w_out snk) w1))).
  assert (Cv : convert forced_names toy_lib case_enc (ReadNode 1) (WriteNode 3) w1 (conversion_result r0) w2).
  { exists some_random, src, None, true, r0, snk, 0%nat. split; [exact some_random_ok|]. split; [split; reflexivity|]. split; [|split; [exact C|left; split; reflexivity]].
    cbn [provides]. rewrite (proj2 Cr 1). change (1 =? 3) with false. cbn iota. rewrite B. intros _ _. cbn [n_content].
    destruct (ends_in_error src); [|exact Hs]. split; [reflexivity|]. exists case_data. rewrite Hs. reflexivity. }
  pose proof (kw_convert forced_names toy_lib _ _ _ _ _ _ Cv Wk1) as Wk2. exists w2. split; [|split; [|exact Wk2]].
  - unfold attempt. apply (bind_runs _ _ (Ok (ReadNode 1, WriteNode 3, Some (at_ "notes.rypt"))) _ w1); [exact Op|].
    apply (bind_runs _ _ (conversion_result r0) _ w2); [|split; reflexivity]. left. exists (conversion_result r0). split; [|split; [exact Cv|reflexivity]].
    destruct r0 as [[]| |]; [discriminate..|contradiction Np; reflexivity].
  - exact (proj1 (write_over _ _ _ _ Cr _ _ eq_refl)).
Qed.

Lemma forced_fails r snk : conversion toy_lib case_enc some_random [RError] (mkSink [] None true false) r snk -> exists e, r = Err e.
Proof.
  destruct r as [[]|e|]; intros C; [exfalso|exists e; reflexivity|exfalso].
  - pose proof (conversion_reads_all toy_lib toy_lib_ok _ _ _ _ _ some_random_ok C) as X. discriminate X.
  - pose proof (conversion_panic toy_lib toy_lib_ok case_enc _ _ _ _ some_random_ok C) as P. destruct case_header as (ser & cod & chunk & He & _).
    assert (Q : encrypt_header toy_lib case_opts some_random = Panic) by exact P. rewrite He in Q. discriminate Q.
Qed.

Lemma forced_reads : if ends_in_error [RData case_data] then flat [RData case_data] = [] else flat [RData case_data] = case_data.
Proof. reflexivity. Qed.
Lemma forced_ok : (Ok tt : outcome err unit) <> Panic.
Proof. discriminate. Qed.
Lemma forced_err e : (Err e : outcome err unit) <> Panic.
Proof. discriminate. Qed.

(** The file is named twice.  The first time it is converted; the second time it cannot be read, and its conversion is
    removed; then it is removed itself. *)
Lemma forced_twice : exists w', crypt_streams forced_names toy_lib [forced_stream; forced_stream] DeleteFiles true case_enc case_world (Err CComposite) w' /\
  f_entries (w_fs w') (num "notes") = None /\ f_entries (w_fs w') forced_out = None.
Proof.
  destruct (conversion_total toy_lib toy_lib_ok case_enc some_random [RData case_data] (mkSink [] None true false) some_random_ok) as (r1 & snk1 & C1).
  assert (r1 = Ok tt) as -> by exact (case_convertible case_data some_random [RData case_data] r1 snk1 some_random_ok eq_refl eq_refl C1).
  destruct (conversion_total toy_lib toy_lib_ok case_enc some_random [RError] (mkSink [] None true false) some_random_ok) as (r2 & snk2 & C2).
  destruct (forced_fails _ _ C2) as [e ->].
  assert (R0 : forced_ready (w_fs case_world)).
  { split; [reflexivity|]. split; [reflexivity|]. left. split; [reflexivity|]. split; [reflexivity|]. intros t X. apply case_files in X as [[_ X]|[_ X]]; discriminate X. }
  destruct (forced_attempt 0 2 case_world [RData case_data] (Ok tt) snk1 R0 (eq_refl : works case_ui) forced_reads forced_ok C1) as (w1 & H1 & D1 & K1).
  assert (S1 : step forced_names toy_lib 0 2 forced_stream true case_enc case_world (Ok ([at_ "notes"], [])) w1).
  { unfold step. apply (bind_runs _ _ (Ok tt, Some (at_ "notes.rypt")) _ w1); [exact H1|]. split; reflexivity. }
  clear H1 C1. destruct (println_works [] _ K1) as [Y1 Z1]. pose (w2 := set_ui w1 (snd (ui_println 0 [] (w_ui w1)))).
  assert (R2 : forced_ready (w_fs w2)).
  { cbn [w2 set_ui w_fs]. split; [rewrite (proj1 D1); reflexivity|]. split; [rewrite (proj2 D1); reflexivity|]. right. exists (w_out snk1). rewrite (proj1 D1), (proj2 D1), !N.eqb_refl. split; reflexivity. }
  destruct (forced_attempt 1 2 w2 [RError] (Err e) snk2 R2 Z1 (eq_refl : flat [RError] = []) (forced_err e) C2) as (w3 & H3 & D3 & K3). clear C2.
  pose (w4 := set_ui w3 (snd (ignore (print_error CConversion) (w_ui w3)))).
  pose (w5 := set_fs w4 (unlink (w_fs w4) forced_out)).
  assert (F5 : forall s, f_entries (w_fs w5) s = if s =? forced_out then None else f_entries (w_fs w1) s).
  { intros s. cbn [w5 set_fs w_fs unlink f_entries]. unfold update. destruct (N.eqb_spec s forced_out) as [->|D]; [reflexivity|]. cbn [w4 set_ui w_fs]. rewrite (proj1 D3).
    destruct (N.eqb_spec s forced_out); [contradiction|reflexivity]. }
  assert (S2 : step forced_names toy_lib 1 2 forced_stream true case_enc w2 (Ok ([], [CConversion])) w5).
  { unfold step. apply (bind_runs _ _ (Err CConversion, Some (at_ "notes.rypt")) _ w3); [exact H3|]. apply (bind_runs _ _ tt _ w4).
    - split; [|reflexivity]. symmetry. apply ignore_ok, print_error_calm.
    - apply (bind_runs _ _ tt _ w5); [|split; reflexivity]. unfold remove_cb. apply (bind_runs _ _ (Ok tt) _ w5); [|split; reflexivity].
      left. exists (Ok tt). split; [discriminate|]. split; [|reflexivity]. unfold remove_file. change (forced_names (at_ "notes.rypt")) with (Some forced_out). cbn iota.
      assert (X : f_entries (w_fs w4) forced_out = Some (EFile 3)) by (cbn [w4 set_ui w_fs]; rewrite (proj1 D3), N.eqb_refl; reflexivity). rewrite X. right. split; reflexivity. }
  assert (K5 : works (w_ui w5)) by exact (sim_works _ _ _ _ (sim_ui _ (act_ignore _ (act_print_error CConversion))) (conj eq_refl eq_refl) K3).
  destruct (println_works [] _ K5) as [Y5 Z5]. pose (w6 := set_ui w5 (snd (ui_println 0 [] (w_ui w5)))). pose (w7 := set_fs w6 (unlink (w_fs w6) (num "notes"))).
  exists w7. split; [|split].
  - unfold crypt_streams. apply (bind_runs _ _ ([at_ "notes"], [CConversion]) _ w6).
    + cbn [length process]. apply (bind_runs _ _ ([at_ "notes"], []) _ w1); [exact S1|]. apply (bind_runs _ _ tt _ w2); [apply ui_runs, Y1|].
      apply (bind_runs _ _ ([], [CConversion]) _ w6); [|split; reflexivity]. apply (bind_runs _ _ ([], [CConversion]) _ w5); [exact S2|].
      apply (bind_runs _ _ tt _ w6); [apply ui_runs, Y5|]. apply (bind_runs _ _ ([], []) _ w6); split; reflexivity.
    + apply (bind_runs _ _ tt _ w7); [|split; reflexivity]. apply (bind_runs _ _ true _ w6); [split; reflexivity|]. cbn [remove_all].
      apply (bind_runs _ _ tt _ w7); [|split; reflexivity]. unfold remove_cb. apply (bind_runs _ _ (Ok tt) _ w7); [|split; reflexivity].
      left. exists (Ok tt). split; [discriminate|]. split; [|reflexivity]. unfold remove_file. change (forced_names (at_ "notes")) with (Some (num "notes")). cbn iota.
      assert (X : f_entries (w_fs w6) (num "notes") = Some (EFile 1)).
      { change (w_fs w6) with (w_fs w5). rewrite F5, (proj1 D1). reflexivity. }
      rewrite X. right. split; reflexivity.
  - cbn [w7 set_fs w_fs unlink f_entries]. unfold update. rewrite N.eqb_refl. reflexivity.
  - cbn [w7 set_fs w_fs unlink f_entries]. unfold update. change (forced_out =? num "notes") with false. cbn iota. change (w_fs w6) with (w_fs w5). rewrite F5, N.eqb_refl. reflexivity.
Qed.

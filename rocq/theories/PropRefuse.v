(** C69, the other way round: command lines are refused for their files, originals and verbosity only with a reason. *)
From Coq.Strings Require Import Byte String.
From Coq Require Import List NArith ZArith Bool PeanoNat Lia.
From Verif Require Import Base BaseFacts Io Text Util CliErrors Getopts Crypto HeaderCrypto KeyFiles Ui CliCreds CliSpec CliProofs Paths Cli PathSpec PathProofs SettingsProofs OptSpec OptProofs CmdSpec CmdProofs RefuseProofs PropNames PropCommandLine.
Import ListNotations.
Local Open Scope N_scope.

Lemma keypair_given occs free : get_mode (mkMatches occs free) = MGenerateKeypair -> given OGenKeypair occs.
Proof.
  intros E. unfold get_mode in E. fold (mode_list (mkMatches occs free)) in E. pose proof (max_by_pos_spec (mode_list (mkMatches occs free)) None) as K.
  destruct (max_by_pos None (mode_list (mkMatches occs free))) as [[p md]|]; [|discriminate E].
  subst md. destruct K as [[K|K] _]; [discriminate K|]. apply mode_list_in in K as (x & J & _ & Em). exists x. split; [exact J|].
  destruct (o_opt x); try discriminate Em; reflexivity.
Qed.

Theorem C69_refusals_have_reasons : forall sha512 files args occs free tin tout terr u e u',
  means 0 args occs free ->
  parse_command_line sha512 files args tin tout terr u = (Err e, u') ->
  (e = CVerbosity -> (times OQuiet occs + 2 < times OVerbose occs)%nat \/ (times OVerbose occs + 2 < times OQuiet occs)%nat) /\
  (e = CKeepAndDiscard -> given OKeepInputs occs /\ given ODiscardInputs occs) /\
  (e = CSingleInput -> given OStream occs /\ (2 <= length free)%nat) /\
  (e = CDash -> ~ given OStream occs /\ free <> [lit "-"] /\ exists a, In a free /\ trim a = lit "-") /\
  (e = CNoKeyFile -> given OGenKeypair occs /\ free = []) /\
  (e = CTwoKeysToStdout -> given OGenKeypair occs /\ (2 <= count_occ (list_eq_dec N.eq_dec) free (lit "-"))%nat).
Proof.
  intros sha512 files args occs free tin tout terr u e u' R H.
  assert (K : special e -> reason args tin tout terr (mkMatches occs free) e).
  { intros S. destruct (reasons _ _ _ _ _ _ _ _ _ H S) as (m & P & K). rewrite <- (means_is _ _ _ _ R P). exact K. }
  clear H. split; [|split; [|split; [|split; [|split]]]]; intros ->; specialize (K I);
    destruct K as [(X & K)|[(d & Hd & [K|[(ss & v & u1 & u2 & K1 & K2)|(X & K)]])|(G & K)]]; try discriminate X;
    try (apply check_refused in K2 as [X|X]; discriminate X);
    try (apply streams_refused in K as [(X & K)|(X & K)]; try discriminate X);
    try (apply keypairs_all_refused in K as [(X & K)|(X & K)]; try discriminate X); cbn [m_free] in K.
  - rewrite !times_count in K. lia.
  - destruct K as [K1 K2]. split; eapply present_iff; eassumption.
  - destruct K as [K1 K2]. split; [eapply present_iff, K1|exact K2].
  - destruct K as (K1 & K2 & K3). split; [eapply present_false, K1|]. split; [exact K2|exact K3].
  - split; [exact (keypair_given _ _ G)|exact K].
  - split; [exact (keypair_given _ _ G)|exact K].
Qed.
Print Assumptions C69_refusals_have_reasons.

(** [-s a b], [a -], [-g], [-g - -], [-k -D a], [-vvv]. *)
Example C69_refusals_case : let run l := fst (parse_command_line (fun b => b) line_files (map lit l) false false false line_ui) in
  run ["-s"; "a"; "b"]%string = Err CSingleInput /\ run ["a"; "-"]%string = Err CDash /\ run ["-g"]%string = Err CNoKeyFile /\
  run ["-g"; "-"; "-"]%string = Err CTwoKeysToStdout /\ run ["--keep-inputs"; "-D"; "a"]%string = Err CKeepAndDiscard /\ run ["-vvv"]%string = Err CVerbosity /\
  means 0 (map lit ["a"; "-"]%string) [] [lit "a"; lit "-"].
Proof.
  repeat split; try (vm_compute; reflexivity).
  refine (proj1 (proj1 (options_read _ (mkMatches _ _)) _)). vm_compute. reflexivity.
Qed.

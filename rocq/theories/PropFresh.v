(** C71: no key is used twice with the same nonce, in however many files.

    Vocabulary (FreshSpec): [run] one encryption, [completed] it succeeded, [uses cs r n] the key and nonce
    of every part of its file, in order, [composed cs r n] the file it wrote has exactly these parts,
    [coincidence] a key derived for one file is a key of another file. *)
From Coq.Strings Require Import Byte String.
From Coq Require Import List NArith Bool Lia Arith.
From Verif Require Import Base BaseFacts Shamir Errors Io Crypto Proto HeaderCrypto CredSpec StreamCrypto StreamSpec Pipeline
  FileCrypto AuthSpec FileSpec FileProofs ToyCrypto PropHeader PropFile HideSpec FreshSpec FreshProofs.
Import ListNotations.

Theorem C71_no_key_and_nonce_used_twice :
  forall lib history,
    lib_ok lib -> Forall (completed lib) history ->
    (* no value was drawn twice *)
    (forall j1 j2 r1 r2, nth_error history j1 = Some r1 -> nth_error history j2 = Some r2 -> j1 <> j2 ->
       er_payload_key (r_random r1) <> er_payload_key (r_random r2) /\
       (forall a cs, lib a = Some cs -> public_of cs r1 <> public_of cs r2)) ->
    exists size,
      forall j1 j2 r1 r2, nth_error history j1 = Some r1 -> nth_error history j2 = Some r2 ->
        chosen (r_opts r1) = chosen (r_opts r2) ->
        exists cs, lib (chosen (r_opts r1)) = Some cs /\
          composed cs r1 (size j1) /\ composed cs r2 (size j2) /\
          forall a b u,
            nth_error (uses cs r1 (size j1)) a = Some u -> nth_error (uses cs r2 (size j2)) b = Some u ->
            (j1 = j2 /\ a = b) \/ (j1 <> j2 /\ coincidence cs r1 r2).
Proof.
  intros lib history Hlib Hall Hdrawn.
  destruct (sizes_exist lib history Hlib Hall) as [size Hs]. exists size. intros j1 j2 r1 r2 H1 H2 Ha.
  destruct (Hs j1 r1 H1) as (cs & Hcs & C1 & L1 & N1). destruct (Hs j2 r2 H2) as (cs2 & Hcs2 & C2 & L2 & N2).
  assert (cs2 = cs) as -> by congruence. exists cs. split; [exact Hcs|]. split; [exact C1|]. split; [exact C2|].
  intros a b u Hu1 Hu2. destruct (Nat.eq_dec j1 j2) as [<-|Hj].
  - left. split; [reflexivity|]. assert (r2 = r1) as -> by congruence.
    exact (same_place cs r1 (size j1) a b u (uses_nodup _ _ _ L1 N1) Hu1 Hu2).
  - right. split; [exact Hj|]. destruct (Hdrawn j1 j2 r1 r2 H1 H2 Hj) as [Hp Hpub].
    exact (shared_use cs r1 r2 _ _ u (Hlib _ _ Hcs) (Hpub _ _ Hcs) Hp L1 L2 (nth_error_In _ _ Hu1) (nth_error_In _ _ Hu2)).
Qed.
Print Assumptions C71_no_key_and_nonce_used_twice.

(** Two files for the same recipients, drawn apart. *)
Definition ex_random2 : enc_random :=
  mkRandom 1023 (map (fun i => n2b (N.of_nat i)) (seq 2 32)) [x07; x06] (fun i => n2b (N.of_nat (7 * i + 4))).
Definition ex_ser2 : bytes := match encrypt_header toy_lib ex_opts ex_random2 with Ok (s, _, _) => s | _ => [] end.
Definition ex_codec2 : codec := mkCodec toy_cs (er_payload_key ex_random2) (cs_hash toy_cs ex_ser2) true.
Lemma ex_encrypts2 : encrypt_header toy_lib ex_opts ex_random2 = Ok (ex_ser2, ex_codec2, 1052664%N).
Proof. vm_compute. reflexivity. Qed.

Definition ex_run (w' : sink) : run := mkRun ex_opts ex_random ex_data ex_out w'.
Definition ex_run2 (w' : sink) : run := mkRun ex_opts ex_random2 ex_data ex_out w'.
Lemma ex_runs : exists w1 w2, Forall (completed toy_lib) [ex_run w1; ex_run2 w2].
Proof.
  destruct (encrypt_stream_works toy_lib ex_opts ex_random ex_ser ex_codec 1044520 toy_lib_ok ex_random_ok ex_encrypts ex_data ex_out)
    as [w1 H1]; [vm_compute; discriminate|reflexivity..|].
  assert (R2 : random_ok ex_random2) by (split; reflexivity).
  destruct (encrypt_stream_works toy_lib ex_opts ex_random2 ex_ser2 ex_codec2 1052664 toy_lib_ok R2 ex_encrypts2 ex_data ex_out)
    as [w2 H2]; [vm_compute; discriminate|reflexivity..|].
  exists w1, w2.
  assert (L : (lenN (HeaderIoSpec.flat ex_data) < 2 ^ 64)%N) by reflexivity.
  constructor; [exact (conj ex_random_ok (conj ex_wf (conj H1 L)))|].
  constructor; [exact (conj R2 (conj ex_wf (conj H2 L)))|constructor].
Qed.

Lemma apart_two {A} (x y r1 r2 : A) j1 j2 : nth_error [x; y] j1 = Some r1 -> nth_error [x; y] j2 = Some r2 -> j1 <> j2 ->
  (r1 = x /\ r2 = y) \/ (r1 = y /\ r2 = x).
Proof.
  intros H1 H2 Hj. destruct j1 as [|[|[|j1]]], j2 as [|[|[|j2]]]; try discriminate; try congruence;
    injection H1 as <-; injection H2 as <-; auto.
Qed.

Example C71_case : exists w1 w2,
  Forall (completed toy_lib) [ex_run w1; ex_run2 w2] /\
  (forall j1 j2 r1 r2, nth_error [ex_run w1; ex_run2 w2] j1 = Some r1 -> nth_error [ex_run w1; ex_run2 w2] j2 = Some r2 -> j1 <> j2 ->
     er_payload_key (r_random r1) <> er_payload_key (r_random r2) /\
     (forall a cs, toy_lib a = Some cs -> public_of cs r1 <> public_of cs r2)) /\
  length (uses toy_cs (ex_run w1) 1) = 6.
Proof.
  destruct ex_runs as (w1 & w2 & H). exists w1, w2. split; [exact H|]. split; [|vm_compute; reflexivity].
  assert (P : er_payload_key ex_random <> er_payload_key ex_random2) by (vm_compute; discriminate).
  assert (Q : fst (cs_keypair toy_cs (er_seed ex_random)) <> fst (cs_keypair toy_cs (er_seed ex_random2))) by (vm_compute; discriminate).
  intros j1 j2 r1 r2 H1 H2 Hj. destruct (apart_two _ _ _ _ _ _ H1 H2 Hj) as [[-> ->]|[-> ->]]; split.
  - exact P.
  - intros a cs E. assert (cs = toy_cs) as -> by (unfold toy_lib in E; congruence). exact Q.
  - intros E. apply P. symmetry. exact E.
  - intros a cs E. assert (cs = toy_cs) as -> by (unfold toy_lib in E; congruence). intros E'. apply Q. symmetry. exact E'.
Qed.

(** Proofs for C85: the names that are shown. *)
From Coq.Strings Require Import Byte String.
From Coq Require Import List NArith ZArith Bool PeanoNat Lia.
From Verif Require Import Base Text Util CliErrors Crypto HeaderCrypto Getopts Ui Paths Cli PathSpec PathProofs CmdProofs Fs Commands.
Import ListNotations.
Local Open Scope N_scope.

(** A component that may stand anywhere; a root or a dot stand only at the beginning. *)
Definition inner (c : component) : Prop := match c with Normal n => name_ok n | ParentDir => True | _ => False end.
Definition proper (p : path) : Prop := match p with [] => True | c :: p' => (c = RootDir \/ c = CurDir \/ inner c) /\ Forall inner p' end.

Lemma split_slash_cons w t : ~ In 47 w -> split_slash (w ++ 47 :: t) = w :: split_slash t.
Proof.
  induction w as [|c w IH]; intros N; [reflexivity|]. cbn [app split_slash]. destruct (N.eqb_spec c 47) as [->|D]; [contradiction N; left; reflexivity|].
  rewrite IH; [reflexivity|]. intros I. apply N. right. exact I.
Qed.
Lemma inner_text c : inner c -> ~ In 47 (component_text c) /\ piece (component_text c) = [c] /\ component_text c <> [46] /\ component_text c <> [].
Proof.
  destruct c as [| | |n]; intros O; [destruct O|destruct O| |].
  - repeat split; try discriminate. intros [|[|[]]]; discriminate.
  - pose proof (piece_name n O) as P. destruct O as (A & B & C & D). cbn [component_text]. auto.
Qed.
Lemma path_text_cons c p : inner c -> path_text (c :: p) = match p with [] => component_text c | _ => component_text c ++ 47 :: path_text p end.
Proof. destruct c; intros []; destruct p; reflexivity. Qed.
Lemma inner_pieces p : Forall inner p -> flat_map piece (split_slash (path_text p)) = p.
Proof.
  induction 1 as [|c p I F IH]; [reflexivity|]. destruct (inner_text c I) as (N & P & _). rewrite (path_text_cons c p I). destruct p as [|c' p'].
  - rewrite split_slash_plain by exact N. cbn [flat_map]. rewrite P. reflexivity.
  - rewrite split_slash_cons by exact N. cbn [flat_map]. rewrite P, IH. reflexivity.
Qed.

(** [components] of a text that does not begin with a slash, and whose first piece is no dot. *)
Lemma components_plain t w ws : split_slash t = w :: ws -> w <> [46] -> (forall r, t <> 47 :: r) -> components t = flat_map piece (w :: ws).
Proof.
  intros Es Dw N. unfold components. rewrite Es.
  assert (E : forall x : path, (match t with 47 :: _ => x | _ => match w :: ws with [46] :: ws0 => CurDir :: flat_map piece ws0 | ws0 => flat_map piece ws0 end end) =
    match w :: ws with [46] :: ws0 => CurDir :: flat_map piece ws0 | ws0 => flat_map piece ws0 end).
  { intros x. destruct t as [|c t]; [reflexivity|]. apply (match47 c t (fun _ => x)). intros ->. exact (N t eq_refl). }
  rewrite E. destruct w as [|x w]; [reflexivity|]. destruct (N.eq_dec x 46) as [->|Dx].
  - destruct w as [|y w]; [contradiction|reflexivity].
  - destruct x as [|p]; [reflexivity|]. do 6 (destruct p as [p|p|]; try reflexivity). contradiction Dx; reflexivity.
Qed.

Lemma shown_back p : proper p -> components (path_text p) = p.
Proof.
  destruct p as [|c p]; [reflexivity|]. intros [[->|[->|I]] F].
  - destruct p as [|c' p']; [reflexivity|]. cbn [path_text component_text app]. unfold components. cbn [split_slash]. cbn [flat_map piece app]. f_equal. exact (inner_pieces _ F).
  - destruct p as [|c' p']; [reflexivity|]. change (path_text (CurDir :: c' :: p')) with (46 :: 47 :: path_text (c' :: p')).
    unfold components. cbn [split_slash N.eqb Pos.eqb]. f_equal. exact (inner_pieces _ F).
  - destruct (inner_text c I) as (N & P & D & E). pose proof (inner_pieces (c :: p) (Forall_cons _ I F)) as K.
    assert (S : exists ws, split_slash (path_text (c :: p)) = component_text c :: ws).
    { rewrite (path_text_cons c p I). destruct p; eexists; [apply split_slash_plain, N|apply split_slash_cons, N]. }
    destruct S as (ws & S). rewrite S in K. rewrite (components_plain _ _ _ S D); [exact K|]. intros r Er.
    rewrite (path_text_cons c p I) in Er. destruct (component_text c) as [|x t]; [contradiction|]. apply N. left. destruct p; injection Er as -> _; reflexivity.
Qed.

Lemma pieces_inner ws : Forall (fun w => ~ In 47 w) ws -> Forall inner (flat_map piece ws).
Proof.
  intros F. pose proof (pieces_ok ws F) as O. unfold path_ok in O. rewrite Forall_forall in *. intros c I. specialize (O c I).
  destruct c as [| | |n]; [exfalso|exfalso|exact Logic.I|exact O].
  all: apply in_flat_map in I as (w & _ & I); unfold piece in I; repeat (match type of I with context [match ?x with _ => _ end] => destruct x end); cbn in I; intuition discriminate.
Qed.
Lemma components_proper t : proper (components t).
Proof.
  pose proof (split_slash_no_slash t) as F. destruct (split_slash t) as [|w ws] eqn:Es.
  { destruct t as [|c t]; [exact Logic.I|]. cbn in Es. destruct (c =? 47); [discriminate|]. destruct (split_slash t); discriminate. }
  assert (D : (exists r, t = 47 :: r) \/ forall r, t <> 47 :: r).
  { destruct t as [|c t]; [right; discriminate|]. destruct (N.eq_dec c 47) as [->|N]; [left; eauto|right]. intros r [= E _]. exact (N E). }
  destruct D as [(r & ->)|D].
  - unfold components. split; [left; reflexivity|]. rewrite Es. apply pieces_inner, F.
  - destruct (list_eq_dec N.eq_dec w [46]) as [->|Dw].
    + inversion F as [|? ? _ Fw]; subst. assert (E : components t = CurDir :: flat_map piece ws).
      { unfold components. rewrite Es. destruct t as [|c t]; [discriminate Es|].
        apply (match47 c t (fun _ => RootDir :: flat_map piece ([46] :: ws))). intros ->. exact (D t eq_refl). }
      rewrite E. split; [right; left; reflexivity|]. apply pieces_inner, Fw.
    + rewrite (components_plain _ _ _ Es Dw D). pose proof (pieces_inner _ F) as P. destruct (flat_map piece (w :: ws)) as [|c p]; [exact Logic.I|].
      inversion P; subst. split; [right; right|]; assumption.
Qed.
Lemma proper_app p q : proper p -> p <> [] -> Forall inner q -> proper (p ++ q).
Proof. destruct p as [|c p]; [contradiction|]. intros [A B] _ C. split; [exact A|]. apply Forall_app. auto. Qed.
Lemma push_proper p n : proper p -> proper (push p n).
Proof.
  intros P. unfold push. destruct p as [|c p]; [apply components_proper|]. apply proper_app; [exact P|discriminate|]. apply pieces_inner, split_slash_no_slash.
Qed.
Lemma proper_before p : forall d l, split_last p = Some (d, l) -> proper p -> proper d.
Proof.
  assert (K : forall x d l, split_last x = Some (d, l) -> x = d ++ [l]).
  { clear. intros x. induction x as [|c p0 IH]; intros d l H; [discriminate H|]. cbn in H. destruct (split_last p0) as [[d' l']|] eqn:E.
    - injection H as <- <-. cbn. f_equal. apply IH. reflexivity.
    - injection H as <- <-. destruct p0 as [|c' p']; [reflexivity|]. cbn [split_last] in E. destruct (split_last p') as [[]|]; discriminate E. }
  intros d l H P. rewrite (K _ _ _ H) in P. destruct d as [|c d]; [exact Logic.I|]. destruct P as [A B]. split; [exact A|]. apply Forall_app in B as [B _]. exact B.
Qed.
Lemma with_extension_proper p e : proper p -> proper (with_extension p e).
Proof.
  intros P. unfold with_extension, file_name. destruct (split_last p) as [[d [| | |n]]|] eqn:E; try exact P.
  apply push_proper. eapply proper_before; eassumption.
Qed.

Lemma streams_proper m d force streams s : get_input_output_streams m d force = Ok streams -> In s streams ->
  (forall p, s_input s = IFile p \/ s_input s = IFileStream p -> proper p) /\ (forall q, s_output s = Ok (OFile q) -> proper q).
Proof.
  unfold get_input_output_streams. intros H I. destruct (opt_present m OStream || _).
  - destruct (m_free m) as [|a [|]]; [| |discriminate H]; injection H as <-; destruct I as [<-|[]]; cbn [s_input s_output].
    + split; [intros p [E|E]|intros q E]; discriminate E.
    + split; [|intros q E; discriminate E]. destruct (text_eqb a dash); intros p [E|E]; try discriminate E. injection E as <-. apply components_proper.
  - unfold ensure in H. destruct (negb _); [|discriminate H]. cbn [bind] in H. injection H as <-. apply in_map_iff in I as (a & <- & _). cbn [s_input s_output].
    split; [intros p [E|E]; [injection E as <-; apply components_proper|discriminate E]|]. intros q E.
    destruct d; unfold add_extension, remove_extension, ensure in E.
    + destruct (force || _); [|discriminate E]. cbn [bind] in E. injection E as <-. apply with_extension_proper, components_proper.
    + destruct (match extension (components a) with Some _ => _ | None => false end); [|discriminate E]. cbn [bind] in E. injection E as <-. apply with_extension_proper, components_proper.
Qed.
Lemma keys_proper l : forall taken ks k, keypair_streams taken l = Ok ks -> In k ks ->
  (forall p, k_public k = Some p -> proper p) /\ (forall p, k_private k = OFile p -> proper p).
Proof.
  induction l as [|a l IH]; intros taken ks k H I; cbn [keypair_streams] in H; [injection H as <-; destruct I|].
  destruct (text_eqb a dash).
  - unfold ensure in H. destruct (negb taken); [|discriminate H]. cbn [bind] in H. destruct (keypair_streams true l) as [ks'| |] eqn:E; try discriminate H. cbn [bind] in H. injection H as <-.
    destruct I as [<-|I]; [split; intros p X; discriminate X|]. eapply IH; eassumption.
  - destruct (keypair_streams taken l) as [ks'| |] eqn:E; try discriminate H. cbn [bind] in H. injection H as <-.
    destruct I as [<-|I]; [|eapply IH; eassumption]. cbn [k_public k_private]. split; intros p X; injection X as <-; [apply with_extension_proper|]; apply components_proper.
Qed.

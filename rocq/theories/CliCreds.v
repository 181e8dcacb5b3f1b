(** Model of cli/credentials.rs:18-350: from command line options to credentials. *)
From Coq.Strings Require Import Byte String.
From Coq Require Import List NArith Bool PeanoNat.
From Verif Require Import Base Text Util CliErrors Getopts Crypto HeaderCrypto KeyFiles Ui.
Import ListNotations.
Local Open Scope N_scope.

(** credentials.rs:69-85 *)
Inductive token :=
| KeyThreshold (n : N)
| RequireAllKeys
| KeyShares (n : N)
| StartGroup
| EndGroup
| InteractivePassword
| NamedInteractivePassword (name : text)
| PasswordFile (filename : text)
| SymmetricKeyFile (filename : text)
| PublicKeyFile (filename : text)
| PublicKeyText (key : text)
| PrivateKeyFile (filename : text).

(** [str::parse::<usize>] (std): an optional plus sign and decimal digits, less than 2^64. *)
Fixpoint parse_digits (acc : N) (t : text) : outcome cerr N :=
  match t with
  | [] => Ok acc
  | c :: t =>
      if (48 <=? c) && (c <=? 57) then
        let acc := acc * 10 + (c - 48) in
        if acc <? two64 then parse_digits acc t else Err CParseInt
      else Err CParseInt
  end.
Definition parse_usize (t : text) : outcome cerr N :=
  let t := match t with 43 :: t' => t' | _ => t end in
  match t with [] => Err CParseInt | _ => parse_digits 0 t end.

(** credentials.rs:94-99 *)
Definition tokens_without_value : list (opt * token) :=
  [(OPassword, InteractivePassword); (OStartGroup, StartGroup); (OEndGroup, EndGroup); (ORequireAllKeys, RequireAllKeys)].
(** credentials.rs:107-110 *)
Definition tokens_with_int_value : list (opt * (N -> token)) :=
  [(OKeyThreshold, KeyThreshold); (OKeyShares, KeyShares)].
(** credentials.rs:118-125 *)
Definition tokens_with_str_value : list (opt * (text -> token)) :=
  [(OPasswordNamed, NamedInteractivePassword); (OPasswordFile, PasswordFile); (OSymmetricKey, SymmetricKeyFile);
   (OPublicKey, PublicKeyFile); (OPublicKeyText, PublicKeyText); (OPrivateKey, PrivateKeyFile)].

(** [sort_by_key] (std), a stable sort. *)
Fixpoint insert_by_pos (x : nat * token) (l : list (nat * token)) : list (nat * token) :=
  match l with
  | [] => [x]
  | y :: l' => if (fst x <=? fst y)%nat then x :: l else y :: insert_by_pos x l'
  end.
Fixpoint sort_by_pos (l : list (nat * token)) : list (nat * token) :=
  match l with [] => [] | x :: l' => insert_by_pos x (sort_by_pos l') end.
(** [dedup_by_key] (std) removes elements with the same key as their predecessor. *)
Fixpoint dedup_by_pos (l : list (nat * token)) : list (nat * token) :=
  match l with
  | [] => []
  | x :: l' =>
      match dedup_by_pos l' with
      | [] => [x]
      | y :: k => if (fst x =? fst y)%nat then x :: k else x :: y :: k
      end
  end.

(** credentials.rs:90-169 *)
Definition extract_tokens (m : opt_matches) : outcome cerr (list token) :=
  let without := flat_map (fun '(o, t) => map (fun pos => (pos, t)) (opt_positions m o)) tokens_without_value in
  let* with_int := map_out (fun '(o, cred) =>
      map_out (fun '(pos, val) => let* n := parse_usize val in Ok (pos, cred n)) (opt_strs_pos m o)) tokens_with_int_value in
  let with_str := flat_map (fun '(o, cred) => map (fun '(pos, val) => (pos, cred val)) (opt_strs_pos m o)) tokens_with_str_value in
  let tokens := sort_by_pos (without ++ concat with_int ++ with_str) in
  let deduped := dedup_by_pos tokens in
  if (length deduped <? length tokens)%nat && (1 <? length deduped)%nat then Err CMergedArguments
  else Ok (map snd tokens).

(** credentials.rs:185-188 *)
Inductive threshold_type := AllKeys | Threshold (n : N).

(** credentials.rs:194-207 *)
Definition decrypt_allowed (t : token) : bool :=
  match t with StartGroup | EndGroup | RequireAllKeys | KeyThreshold _ | KeyShares _ => false | _ => true end.
Definition key_shares_allowed (t : token) : bool :=
  match t with EndGroup | RequireAllKeys | KeyThreshold _ | KeyShares _ => false | _ => true end.

Definition ensure_act (c : bool) (e : cerr) : act unit := lift (ensure c e).

Section WithEnvironment.
Variable sha512 : bytes -> bytes.
(** [fs::read_to_string] of a file name before decoding; [None] if it cannot be read. *)
Variable files : text -> option bytes.

(** The key-providing tokens, credentials.rs:253-309. *)
Definition read_token (d : crypt_direction) (skip_checksum : bool) (t : token) : act (list cred) :=
  match t with
  | InteractivePassword =>
      let+ c := read_password_interactively d None in ret [c]
  | NamedInteractivePassword name =>
      let+ c := read_password_interactively d (Some name) in ret [c]
  | PasswordFile f => lift (read_file_lines (files f) password_line)
  | SymmetricKeyFile f => lift (read_file_lines (files f) (symmetric_key_line sha512))
  | PublicKeyFile f =>
      let+ _ := ensure_act (is_encrypt d) CPublicKeyOnDecrypt in
      lift (read_file_lines (files f) (public_key_line sha512 skip_checksum))
  | PublicKeyText k =>
      let+ _ := ensure_act (is_encrypt d) CPublicKeyOnDecrypt in
      let+ c := lift (public_key_line sha512 skip_checksum k) in ret [c]
  | PrivateKeyFile f =>
      let+ _ := ensure_act (negb (is_encrypt d)) CPrivateKeyOnEncrypt in
      lift (read_file_lines (files f) (private_key_line sha512 skip_checksum))
  | _ => lift Panic
  end.

(** The variables of the loop, credentials.rs:181-190. *)
Record parse_state := mkState {
  p_sub_creds : list (N * cred);
  p_num_shares : N;
  p_next_key_shares : N;
  p_threshold : option threshold_type
}.
Definition initial_state : parse_state := mkState [] 0 1 None.

(** credentials.rs:312-321 *)
Definition add_creds (st : parse_state) (creds : list cred) : act parse_state :=
  let+ _ := ensure_act (match creds with [] => false | _ => true end) CNoCredentials in
  ret (mkState (p_sub_creds st ++ map (fun c => (p_next_key_shares st, c)) creds)
               (wrap64 (p_num_shares st + wrap64 (p_next_key_shares st * lenN creds)))
               1 (p_threshold st)).

(** credentials.rs:324-349, after the loop. *)
Definition finish_group (level : nat) (end_group : bool) (st : parse_state) : outcome cerr cred :=
  let* _ := ensure (negb ((level =? 0)%nat && end_group)) CExtraEndGroup in
  let* _ := ensure (negb (negb (level =? 0)%nat && negb end_group)) CUnclosedGroup in
  let* _ := ensure (0 <? p_num_shares st) CEmptyGroup in
  let threshold :=
    match p_threshold st with None => 1 | Some (Threshold n) => n | Some AllKeys => p_num_shares st end in
  let* _ := ensure (0 <? threshold) CZeroThreshold in
  let* _ := ensure (threshold <=? p_num_shares st) CThresholdTooLarge in
  Ok (Complex (p_sub_creds st) (p_num_shares st) threshold).

(** credentials.rs:192-349: the loop and what follows it; the tokens that are left are returned too, since the
    iterator is shared with the caller.  Every recursive call has consumed a token, so [fuel] above the number of
    tokens is enough (CliProofs.parse_loop_fuel). *)
Fixpoint parse_loop (fuel : nat) (d : crypt_direction) (skip_checksum : bool) (level : nat) (st : parse_state)
    (tokens : list token) {struct fuel} : act (cred * list token) :=
  match fuel with
  | O => lift Panic
  | S fuel =>
      match tokens with
      | [] => let+ c := lift (finish_group level false st) in ret (c, [])
      | t :: tokens =>
          let+ _ := ensure_act (is_encrypt d || decrypt_allowed t) CCombinatorOnDecrypt in
          let+ _ := ensure_act ((p_next_key_shares st =? 1) || key_shares_allowed t) CSharesNotFollowedByKey in
          match t with
          | StartGroup =>
              let+ (subkeys, tokens) := parse_loop fuel d skip_checksum (S level) initial_state tokens in
              let+ st := add_creds st [subkeys] in
              parse_loop fuel d skip_checksum level st tokens
          | EndGroup => let+ c := lift (finish_group level true st) in ret (c, tokens)
          | KeyShares n =>
              let+ _ := ensure_act (0 <? n) CZeroShares in
              parse_loop fuel d skip_checksum level (mkState (p_sub_creds st) (p_num_shares st) n (p_threshold st)) tokens
          | RequireAllKeys =>
              let+ _ := ensure_act (match p_threshold st with None => true | Some _ => false end) CManyThresholds in
              parse_loop fuel d skip_checksum level
                (mkState (p_sub_creds st) (p_num_shares st) (p_next_key_shares st) (Some AllKeys)) tokens
          | KeyThreshold n =>
              let+ _ := ensure_act (match p_threshold st with None => true | Some _ => false end) CManyThresholds in
              parse_loop fuel d skip_checksum level
                (mkState (p_sub_creds st) (p_num_shares st) (p_next_key_shares st) (Some (Threshold n))) tokens
          | _ =>
              let+ creds := read_token d skip_checksum t in
              let+ st := add_creds st creds in
              parse_loop fuel d skip_checksum level st tokens
          end
      end
  end.
(** credentials.rs:174-350 at level 0, the only level at which it is called from outside. *)
Definition parse_complex_credential (d : crypt_direction) (skip_checksum : bool) (tokens : list token) : act cred :=
  let+ (c, _) := parse_loop (S (length tokens)) d skip_checksum 0 initial_state tokens in ret c.

(** credentials.rs:23-26 and 42-45 *)
Definition default_tokens (tokens : list token) : list token :=
  match tokens with [] => [InteractivePassword] | _ => tokens end.

(** credentials.rs:18-35 *)
Definition get_encrypt_credential (m : opt_matches) (force : bool) : act cred :=
  let+ tokens := lift (extract_tokens m) in
  parse_complex_credential Encrypt force (default_tokens tokens).

(** credentials.rs:37-65 *)
Definition get_decrypt_credentials (m : opt_matches) (force : bool) : act (list cred) :=
  let+ tokens := lift (extract_tokens m) in
  let+ c := parse_complex_credential Decrypt force (default_tokens tokens) in
  match c with
  | Complex sub_creds num_shares threshold =>
      let+ _ := lift (assert (negb (num_shares =? 0))) in
      let+ _ := lift (assert (threshold =? 1)) in
      lift (map_out (fun '(num_parts, cred) => let* _ := assert (num_parts =? 1) in Ok cred) sub_creds)
  | _ => lift Panic
  end.

End WithEnvironment.

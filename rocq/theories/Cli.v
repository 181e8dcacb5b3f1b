(** Model of cli/mod.rs, cli/io_streams.rs and cli/key_management.rs: from the command line to a command. *)
From Coq.Strings Require Import Byte String.
From Coq Require Import List NArith ZArith Bool PeanoNat.
From Verif Require Import Base Text Util CliErrors Getopts Crypto HeaderCrypto KeyFiles Ui CliCreds Paths.
Import ListNotations.
Local Open Scope N_scope.

(** cli/mod.rs:29-35 *)
Inductive operation_mode := MCrypt (d : crypt_direction) | MGenerateKeypair | MHelp | MVersion.
(** cli/mod.rs:37-43 *)
Definition MODES : list (opt * operation_mode) :=
  [(OEncrypt, MCrypt Encrypt); (ODecrypt, MCrypt Decrypt); (OGenKeypair, MGenerateKeypair); (OHelp, MHelp); (OVersion, MVersion)].

(** [Iterator::max_by_key] (std): the last of the greatest elements *)
Fixpoint max_by_pos {A} (best : option (nat * A)) (l : list (nat * A)) : option (nat * A) :=
  match l with
  | [] => best
  | x :: l =>
      max_by_pos (Some match best with Some b => if (fst x <? fst b)%nat then b else x | None => x end) l
  end.
(** cli/mod.rs:45-59 *)
Definition get_mode (m : opt_matches) : operation_mode :=
  match max_by_pos None (flat_map (fun '(o, mode) => map (fun pos => (pos, mode)) (opt_positions m o)) MODES) with
  | Some (_, mode) => mode
  | None => MCrypt Encrypt
  end.

(** io_streams.rs:8-15, 109-114, 184-188; what opens stdin and stdout is left out. *)
Inductive input_stream := IFile (p : path) | IFileStream (p : path) | IStdin.
Inductive output_stream := OFile (p : path) | OStdout.
Record io_stream := mkStream { s_input : input_stream; s_output : outcome cerr output_stream }.

(** cli/io_streams.rs:71-79 *)
Definition get_encrypted_file_extension (m : opt_matches) : text :=
  match opt_str m OSuffix with
  | None => lit "rypt"
  | Some (46 :: e) => e
  | Some e => e
  end.
(** cli/io_streams.rs:81-93 *)
Definition add_extension (p : path) (ext : text) (force : bool) : outcome cerr path :=
  let new_ext := match extension p with Some e => e | None => [] end in
  let* _ := ensure (force || negb (text_eqb new_ext ext)) CHasExtension in
  let new_ext := match new_ext with [] => [] | _ => new_ext ++ [46] end in
  Ok (with_extension p (new_ext ++ ext)).
(** cli/io_streams.rs:95-103 *)
Definition remove_extension (p : path) (ext : text) : outcome cerr path :=
  let* _ := ensure (match extension p with Some e => text_eqb e ext | None => false end) CHasNoExtension in
  Ok (with_extension p []).

Definition dash : text := [45].
(** cli/io_streams.rs:11-68 *)
Definition get_input_output_streams (m : opt_matches) (d : crypt_direction) (force : bool) : outcome cerr (list io_stream) :=
  let stream_mode := opt_present m OStream || match m_free m with [] => true | [a] => text_eqb a dash | _ => false end in
  if stream_mode then
    match m_free m with
    | [] => Ok [mkStream IStdin (Ok OStdout)]
    | [a] => Ok [mkStream (if text_eqb a dash then IStdin else IFileStream (components a)) (Ok OStdout)]
    | _ => Err CSingleInput
    end
  else
    let* _ := ensure (negb (existsb (fun a => text_eqb (trim a) dash) (m_free m))) CDash in
    let ext := get_encrypted_file_extension m in
    Ok (map (fun a =>
      let p := components a in
      mkStream (IFile p)
        (let* q := match d with Encrypt => add_extension p ext force | Decrypt => remove_extension p ext end in Ok (OFile q)))
      (m_free m)).

(** commands/mod.rs:38-43 *)
Inductive cleanup_policy := KeepFiles | DeleteFiles | PromptUser.
(** commands/mod.rs:32-36 *)
Inductive direction_opts := DoEncrypt (c : cred) (fast : bool) | DoDecrypt (cs : list cred).
(** commands/mod.rs:54-64: the file of the public key, if there is one, and that of the private key *)
Record key_streams := mkKeyStreams { k_public : option path; k_private : output_stream }.
(** commands/mod.rs:13-19, 45-52; the printing of help and version is left out. *)
Inductive command :=
| CryptStreams (streams : list io_stream) (policy : cleanup_policy) (force : bool) (d : direction_opts)
| GenerateKeyPair (streams : list key_streams) (force : bool)
| Help
| Version.

(** cli/key_management.rs:9-43; [taken] says that stdout is already used. *)
Fixpoint keypair_streams (taken : bool) (l : list text) : outcome cerr (list key_streams) :=
  match l with
  | [] => Ok []
  | a :: l =>
      if text_eqb a dash then
        let* _ := ensure (negb taken) CTwoKeysToStdout in
        let* ks := keypair_streams true l in Ok (mkKeyStreams None OStdout :: ks)
      else
        let p := components a in
        let* ks := keypair_streams taken l in
        Ok (mkKeyStreams (Some (with_extension p (lit "pub"))) (OFile p) :: ks)
  end.
Definition get_keypair_streams (m : opt_matches) : outcome cerr (list key_streams) :=
  let* _ := ensure (match m_free m with [] => false | _ => true end) CNoKeyFile in
  keypair_streams false (m_free m).

(** cli/mod.rs:156-216 *)
Definition is_stdin (s : io_stream) : bool := match s_input s with IStdin => true | _ => false end.
Definition is_stdout (s : io_stream) : bool := match s_output s with Ok OStdout => true | _ => false end.
Definition check_and_adjust_ui_verbosity (verbosity : Z) (streams : list io_stream) (d : crypt_direction)
    (force stdin_is_tty stdout_is_tty stderr_is_tty : bool) : act unit := fun u =>
  let stdin_is_data := match streams with [s] => is_stdin s | _ => false end in
  let stdout_is_data := match streams with [s] => is_stdout s | _ => false end in
  let stdin_is_binary := stdin_is_data && negb (is_encrypt d) in
  let stdout_is_binary := stdout_is_data && is_encrypt d in
  if stdin_is_tty && stdin_is_binary && negb force then (Err CReadFromTerminal, u)
  else if stdout_is_tty && stdout_is_binary && negb force then (Err CWriteToTerminal, u)
  else if (verbosity =? 0)%Z then
    let expected_tty is_tty is_binary := is_tty || is_binary in
    let not_mess_up_tty is_tty is_data := negb (is_data && is_tty) in
    let increase_verbosity :=
      stderr_is_tty && expected_tty stdin_is_tty stdin_is_binary && expected_tty stdout_is_tty stdout_is_binary in
    let u := set_verbosity u (if increase_verbosity then 1 else -1)%Z in
    let show_progress_bar :=
      increase_verbosity && not_mess_up_tty stdin_is_tty stdin_is_data && not_mess_up_tty stdout_is_tty stdout_is_data in
    (Ok tt, set_progress_enabled u show_progress_bar)
  else (Ok tt, u).

Section WithEnvironment.
Variable sha512 : bytes -> bytes.
Variable files : text -> option bytes.

(** cli/mod.rs:61-143.  The option counts do not overflow i32. *)
Definition parse_command_line (args : list text) (stdin_is_tty stdout_is_tty stderr_is_tty : bool) : act command :=
  let+ m := lift (parse_options args) in
  let verbosity := (Z.of_N (opt_count m OVerbose) - Z.of_N (opt_count m OQuiet))%Z in
  let+ _ := ensure_act ((-2 <=? verbosity)%Z && (verbosity <=? 2)%Z) CVerbosity in
  let+ _ := (fun u => (Ok tt, set_verbosity u verbosity)) in
  let force := opt_present m OForce in
  let mode := if match args with [] => true | _ => false end && stdout_is_tty then MHelp else get_mode m in
  match mode with
  | MCrypt d =>
      let+ streams := lift (get_input_output_streams m d force) in
      let+ _ := check_and_adjust_ui_verbosity verbosity streams d force stdin_is_tty stdout_is_tty stderr_is_tty in
      let+ policy :=
        match opt_present m OKeepInputs, opt_present m ODiscardInputs with
        | true, true => lift (Err CKeepAndDiscard)
        | true, false => ret KeepFiles
        | false, true => ret DeleteFiles
        | false, false => ret PromptUser
        end in
      let+ dir :=
        match d with
        | Encrypt => let+ c := get_encrypt_credential sha512 files m force in ret (DoEncrypt c (opt_present m OFast))
        | Decrypt => let+ cs := get_decrypt_credentials sha512 files m force in ret (DoDecrypt cs)
        end in
      ret (CryptStreams streams policy force dir)
  | MGenerateKeypair => let+ ks := lift (get_keypair_streams m) in ret (GenerateKeyPair ks force)
  | MHelp => ret Help
  | MVersion => ret Version
  end.

End WithEnvironment.

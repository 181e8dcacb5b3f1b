(** Model of ui.rs ([BasicUI] and the default methods of the trait [UI]) and of
    cli/credentials.rs:405-443. *)
From Coq.Strings Require Import Byte String.
From Coq Require Import List NArith ZArith Bool.
From Verif Require Import Base Shamir Errors Io Text Util CliErrors Crypto HeaderCrypto.
Import ListNotations.
Local Open Scope N_scope.

(** What a user sees of the terminal, in order. *)
Inductive message :=
| MPrompt (t : text)       (* written without a line feed *)
| MLine (t : text)         (* a line *)
| MError (e : cerr)        (* "rypt: " and the error *)
| MProgress.               (* a progress line *)
Inductive event :=
| Printed (m : message)
| Echo (on : bool)         (* terminal.rs: set_stdin_echo *)
| Typed (line : text).     (* the reply to a prompt was read *)

(** ui.rs:74-82.  The program name is left out.  The terminal output is the trace of what happened; it
    accepts [u_room] more messages before every write fails ([None]: it always works). *)
Record ui := mkUi {
  u_input : option source;
  u_input_is_tty : bool;
  u_output_is_tty : bool;
  u_verbosity : Z;
  u_progress_enabled : bool;
  u_room : option nat;
  u_trace : list event
}.

(** Computations with a user interface. *)
Definition act (A : Type) : Type := ui -> outcome cerr A * ui.
Definition ret {A} (a : A) : act A := fun u => (Ok a, u).
Definition lift {A} (x : outcome cerr A) : act A := fun u => (x, u).
Definition bind_act {A B} (m : act A) (f : A -> act B) : act B := fun u =>
  match m u with
  | (Ok a, u) => f a u
  | (Err e, u) => (Err e, u)
  | (Panic, u) => (Panic, u)
  end.
Notation "'let+' p ':=' x 'in' k" := (bind_act x (fun p => k))
  (at level 200, p pattern, x at level 100, k at level 200, right associativity).
(** [res.ok()]: an error is ignored. *)
Definition ignore {A} (m : act A) : act unit := fun u =>
  match m u with (Panic, u) => (Panic, u) | (_, u) => (Ok tt, u) end.

Definition set_input (u : ui) (i : option source) : ui :=
  mkUi i (u_input_is_tty u) (u_output_is_tty u) (u_verbosity u) (u_progress_enabled u) (u_room u) (u_trace u).
Definition log (u : ui) (e : event) : ui :=
  mkUi (u_input u) (u_input_is_tty u) (u_output_is_tty u) (u_verbosity u) (u_progress_enabled u) (u_room u) (u_trace u ++ [e]).
Definition set_verbosity (u : ui) (v : Z) : ui :=
  mkUi (u_input u) (u_input_is_tty u) (u_output_is_tty u) v (u_progress_enabled u) (u_room u) (u_trace u).
Definition set_progress_enabled (u : ui) (b : bool) : ui :=
  mkUi (u_input u) (u_input_is_tty u) (u_output_is_tty u) (u_verbosity u) b (u_room u) (u_trace u).

(** ** Printing *)

(** A write to the terminal. *)
Definition emit (m : message) : act unit := fun u =>
  match u_room u with
  | Some O => (Err CIo, u)
  | Some (S n) =>
      (Ok tt, log (mkUi (u_input u) (u_input_is_tty u) (u_output_is_tty u) (u_verbosity u) (u_progress_enabled u) (Some n) (u_trace u)) (Printed m))
  | None => (Ok tt, log u (Printed m))
  end.

(** ui.rs:10-11 *)
Definition ERROR_VERBOSITY : Z := (-1)%Z.
Definition INTERACTIVE_VERBOSITY : Z := (-1)%Z.

(** ui.rs:126-128 *)
Definition will_print (u : ui) (verbosity : Z) : bool := (verbosity <=? u_verbosity u)%Z.

(** ui.rs:130-135 and 29-31 ([println]) *)
Definition ui_println (verbosity : Z) (t : text) : act unit := fun u =>
  if will_print u verbosity then emit (MLine t) u else (Ok tt, u).
(** ui.rs:137-142 *)
Definition print_error (e : cerr) : act unit := fun u =>
  if will_print u ERROR_VERBOSITY then emit (MError e) u else (Ok tt, u).
(** ui.rs:144-149 *)
Definition println_interactive (t : text) : act unit := fun u =>
  if will_print u INTERACTIVE_VERBOSITY then emit (MLine t) u else (Ok tt, u).
(** ui.rs:151-158 *)
Definition println_progress (verbosity : Z) : act unit := fun u =>
  if u_progress_enabled u then
    (if will_print u verbosity then emit MProgress u else (Ok tt, u))
  else (Ok tt, u).

(** ** Reading *)

(** [Read::bytes().next()] (std): one byte; interrupted calls are repeated; a read of 0 bytes is the end. *)
Fixpoint next_byte (s : source) : option (outcome cerr byte) * source :=
  match s with
  | [] => (None, [])
  | RInterrupted :: s' => next_byte s'
  | RError :: s' => (Some (Err CIo), s')
  | RData [] :: s' => (None, s')
  | RData (b :: d) :: s' => (Some (Ok b), push_back d s')
  end.

Definition source_size (s : source) : nat :=
  length (concat (map (fun e => match e with RData d => d | _ => [] end) s)).

(** The loop ui.rs:176-202.  Every round takes a byte, so [source_size] rounds are enough
    (UiProofs.read_chars_fuel). *)
Fixpoint read_chars (fuel : nat) (s : source) (char_bytes : bytes) (res : text) : outcome cerr text * source :=
  match fuel with
  | O => (Panic, s)
  | S fuel =>
      match next_byte s with
      | (None, s') => (Err CEof, s')
      | (Some (Err e), s') => (Err e, s')
      | (Some Panic, s') => (Panic, s')
      | (Some (Ok b), s') =>
          let char_bytes := char_bytes ++ [b] in
          match from_utf8 char_bytes with
          | Valid valid_char =>
              if text_eqb valid_char [10] then (Ok (drop_cr res), s')
              else read_chars fuel s' [] (res ++ valid_char)
          | Incomplete => read_chars fuel s' char_bytes res
          | Invalid => (Err CNonUtf8, s')
          end
      end
  end.

(** ui.rs:162-167 *)
Definition can_read (u : ui) : bool :=
  match u_input u with Some _ => true | None => false end &&
  u_input_is_tty u && u_output_is_tty u && will_print u INTERACTIVE_VERBOSITY.

(** ui.rs:169-203 *)
Definition read_prompt (prompt : text) : act text := fun u =>
  if negb (can_read u) then (Err CCannotPrompt, u)
  else
    (let+ _ := emit (MPrompt prompt) in
     fun u =>
       match u_input u with
       | None => (Panic, u)
       | Some s =>
           let '(r, s') := read_chars (S (source_size s)) s [] [] in
           let u := set_input u (Some s') in
           (r, match r with Ok t => log u (Typed t) | _ => u end)
       end) u.

(** ui.rs:205-207 *)
Definition set_stdin_echo (on : bool) : act unit := fun u => (Ok tt, log u (Echo on)).

(** How many replies can still be read; bounds the loops below. *)
Definition input_size (u : ui) : nat := match u_input u with Some s => source_size s | None => O end.

(** ui.rs:38-60 *)
Fixpoint prompt_loop (fuel : nat) (prompt : text) (default : bool) : act bool :=
  match fuel with
  | O => lift Panic
  | S fuel =>
      let+ reply := read_prompt prompt in
      let reply := map ascii_lower reply in
      if text_eqb reply (lit "y") || text_eqb reply (lit "yes") then ret true
      else if text_eqb reply (lit "n") || text_eqb reply (lit "no") then ret false
      else if text_eqb reply [] then ret default
      else
        let+ _ := println_interactive (lit "Invalid input, please enter 'y' or 'n'.") in
        prompt_loop fuel prompt default
  end.
Definition read_prompt_bool (verbosity : Z) (prompt : text) (default : bool) : act (option bool) := fun u =>
  if negb (can_read u) || negb (will_print u verbosity) then (Ok None, u)
  else
    let prompt := prompt ++ [32] ++ lit (if default then "[Y/n]" else "[y/N]") ++ lit ": " in
    (let+ b := prompt_loop (S (input_size u)) prompt default in ret (Some b)) u.

(** ui.rs:62-71 *)
Definition read_password (prompt : text) : act text := fun u =>
  if negb (can_read u) then (Err CCannotPrompt, u)
  else
    (let+ _ := set_stdin_echo false in
     fun u =>
       let '(res, u) := read_prompt prompt u in
       (let+ _ := set_stdin_echo true in
        let+ _ := println_interactive [] in
        lift res) u) u.

(** cli/mod.rs:23-27 *)
Inductive crypt_direction := Encrypt | Decrypt.
Definition is_encrypt (d : crypt_direction) : bool := match d with Encrypt => true | Decrypt => false end.

(** credentials.rs:405-443 *)
Fixpoint password_loop (fuel : nat) (d : crypt_direction) (message : text) : act cred :=
  match fuel with
  | O => lift Panic
  | S fuel =>
      let+ password := read_password message in
      if text_eqb password [] then
        let+ _ := println_interactive (lit "Password can not be empty, try again.") in
        password_loop fuel d message
      else
        let+ confirmed :=
          if is_encrypt d then
            let+ password_again := read_password (lit "Confirm password: ") in
            ret (text_eqb password_again password)
          else ret true in
        if confirmed then
          let+ _ := println_interactive [] in
          ret (Password (utf8 password))
        else
          let+ _ := println_interactive (lit "Passwords don't match, try again.") in
          password_loop fuel d message
  end.
Definition read_password_interactively (d : crypt_direction) (password_name : option text) : act cred := fun u =>
  if negb (can_read u) then (Err CCannotPrompt, u)
  else
    let suffix := match password_name with Some n => lit " (" ++ n ++ lit ")" | None => [] end in
    password_loop (S (input_size u)) d (lit "Enter password" ++ suffix ++ lit ": ") u.

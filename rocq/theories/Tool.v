(** A whole run of ratelmq-passwd: ratelmq-passwd/src/main.rs, from the command line to the file.

    The command line is the list of the options given, in order, with their values; how they are spelled ([-u x], [--user=x], ...) is up to clap, and so
    are [--help], [--version] and what is no option at all, after which the process ends without running the rest of main.  Values are UTF-8.
    From the outside come: the commit hash, whether the regex crate builds the expression for a user name (it refuses too long ones), the files, the
    argon2 hash of a password (None: an error), and whether a file can be written. *)
From Verif Require Import Base Auth Passwd Startup.
Open Scope nat_scope.

Inductive option_given := GivenFile (v : bytes) | GivenUser (v : bytes) | GivenPassword (v : bytes) | GivenDelete.

(** ArgMatches, for the four arguments of main.rs:64-100 *)
Record matches := { m_file : bytes; m_user : option bytes; m_password : option bytes; m_delete : bool }.

Definition none {A} (l : list A) : bool := match l with [] => true | _ => false end.
Definition once {A} (l : list A) : bool := match l with [_] => true | _ => false end.

Definition files_given gs := flat_map (fun g => match g with GivenFile v => [v] | _ => [] end) gs.
Definition users_given gs := flat_map (fun g => match g with GivenUser v => [v] | _ => [] end) gs.
Definition passwords_given gs := flat_map (fun g => match g with GivenPassword v => [v] | _ => [] end) gs.
Definition deletes_given gs := flat_map (fun g => match g with GivenDelete => [tt] | _ => [] end) gs.

(** clap: no argument more than once (none of them allows it), [required], [required_unless_present], [conflicts_with], [default_value].
    None: a message, and the process ends. *)
Definition get_matches (gs : list option_given) : option matches :=
  let at_most_once := forallb (fun b => b)
    [none (files_given gs) || once (files_given gs); none (users_given gs) || once (users_given gs);
     none (passwords_given gs) || once (passwords_given gs); none (deletes_given gs) || once (deletes_given gs)] in
  let required := negb (none (users_given gs)) in
  let required_unless := negb (none (passwords_given gs)) || negb (none (deletes_given gs)) in
  let conflict := negb (none (passwords_given gs)) && negb (none (deletes_given gs)) in
  if at_most_once && required && required_unless && negb conflict then
    Some {| m_file := match files_given gs with v :: _ => v | [] => str "/etc/ratelmq/passwd" end;
            m_user := hd_error (users_given gs); m_password := hd_error (passwords_given gs); m_delete := negb (none (deletes_given gs)) |}
  else None.

Record outside := {
  built_from : bytes;                    (* BUILD_INFO.commit_hash *)
  regex_builds : bytes -> bool;
  read_file : bytes -> option bytes;     (* read_to_string: None if it fails or is not UTF-8 *)
  argon2_hash : bytes -> option bytes;
  can_write : bytes -> bool }.

Inductive outcome :=
| Usage                                  (* clap ends the process *)
| UnwrapNone                             (* one of the unwraps of lines 23, 24, 105 on None *)
| Panics                                 (* lines 19, 33, 35, 112: the file is as before *)
| Unwritten (name : bytes)               (* line 56: the write fails *)
| Finished (written : option (bytes * bytes)).

(** build_entry (main.rs:104-117) *)
Definition entry_for (w : outside) (user : bytes) (maybe_password : option bytes) (go_on : bytes -> outcome) : outcome :=
  match maybe_password with
  | None => UnwrapNone
  | Some password =>
    match argon2_hash w password with
    | None => Panics
    | Some hash => go_on (build_entry user hash)
    end
  end.

Definition passwd_main (ci : bytes -> bytes -> bool) (w : outside) (gs : list option_given) : outcome :=
  if slice_ok 10 (built_from w) then
    match get_matches gs with
    | None => Usage
    | Some m =>
      match m_user m with
      | None => UnwrapNone
      | Some user =>
        if regex_builds w user then
          match read_file w (m_file m) with
          | None => Panics
          | Some credentials =>
            let write content := if can_write w (m_file m) then Finished (Some (m_file m, content)) else Unwritten (m_file m) in
            match find ci user credentials with
            | Some _ =>
              if m_delete m then write (replace_first ci user credentials [])
              else entry_for w user (m_password m) (fun e => write (replace_first ci user credentials (double_dollars e)))
            | None =>
              if m_delete m then Finished None
              else entry_for w user (m_password m) (fun e => write (credentials ++ e))
            end
          end
        else Panics
      end
    end
  else Panics.

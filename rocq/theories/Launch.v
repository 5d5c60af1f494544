(** Before the program does anything of its own: build.rs, src/config/build_info.rs and src/main.rs:8-11.

    - Cargo (not in /repo) reads what build.rs prints line by line, trims each line and takes a line
      "cargo:rustc-env=NAME=VALUE" as the variable NAME for [env!] (build_info.rs:9); the last one with a name counts.
      Simplification: only ASCII white space is trimmed, and other instructions that git's output might contain are
      not followed.
    - dotenv 0.15 (Cargo.toml) goes through the lines of the file .env of the directory the program is started in, or
      of one above it, and sets each variable that [env::var] does not find; it stops at the first line that it
      cannot read or parse, and main.rs:8 ignores the error.  The file is given as the list of its lines that are not
      empty or comments: Some (name, value), or None for one that is no assignment.
    - [env::set_var] panics if the name is empty or has an "=" or NUL in it, or the value a NUL; it replaces the value
      of the variable where it stands, or adds the variable at the end. *)
From Verif Require Import Base Utf8 HashMap Startup Settings.

(** ** build.rs *)

Definition blank (b : byte) : bool :=
  match b with x09 | x0a | x0b | x0c | x0d | x20 => true | _ => false end.

Fixpoint trim_start (s : bytes) : bytes :=
  match s with b :: r => if blank b then trim_start r else s | [] => [] end.

Definition trim (s : bytes) : bytes := rev (trim_start (rev (trim_start s))).

(** The pieces between line feeds. *)
Fixpoint split_lines (cur s : bytes) : list bytes :=
  match s with
  | [] => [rev cur]
  | b :: r => if byte_eqb b x0a then rev cur :: split_lines [] r else split_lines (b :: cur) r
  end.

Definition instruction : bytes := str "cargo:rustc-env=BUILD_GIT_HASH=".

Definition hash_in (line : bytes) : option bytes := after_prefix instruction (trim line).

(** The last line that gives the hash. *)
Fixpoint last_hash (ls : list bytes) : option bytes :=
  match ls with
  | [] => None
  | l :: r => match last_hash r with Some h => Some h | None => hash_in l end
  end.

(** build.rs:3-11 and build_info.rs:9: the hash in the program, by what git prints (None: git cannot be started);
    None if there is no program. build.rs does not look at git's exit status. *)
Definition built (git : option bytes) : option bytes :=
  match git with
  | None => None                                                     (* build.rs:7 *)
  | Some out =>
    if utf8_ok out then                                              (* build.rs:8 *)
      match out with
      | [] => None                                                   (* build.rs:9 *)
      | _ => last_hash (split_lines [] (instruction ++ out ++ [x0a]))   (* build.rs:10 *)
      end
    else None
  end.

(** main.rs:11: the text of --version after the name; None if it panics. [version] is Cargo.toml's. *)
Definition version_text (version hash : bytes) : option bytes :=
  if slice_ok 10 hash then Some (str "v" ++ version ++ str "(" ++ firstn 10 hash ++ str ")") else None.

(** ** .env (main.rs:8) *)

(** The value getenv finds. *)
Fixpoint getenv (name : bytes) (env : list (bytes * bytes)) : option bytes :=
  match env with
  | [] => None
  | (n, v) :: r => if bytes_eqb name n then Some v else getenv name r
  end.

(** env::var *)
Definition env_var (name : bytes) (env : list (bytes * bytes)) : option bytes :=
  match getenv name env with
  | Some v => if utf8_ok v then Some v else None
  | None => None
  end.

Fixpoint setenv (name v : bytes) (env : list (bytes * bytes)) : list (bytes * bytes) :=
  match env with
  | [] => [(name, v)]
  | (n, w) :: r => if bytes_eqb name n then (n, v) :: r else (n, w) :: setenv name v r
  end.

Definition in_bytes (b : byte) (s : bytes) : bool := existsb (byte_eqb b) s.

Definition can_set (name v : bytes) : bool :=
  match name with [] => false | _ => true end
  && negb (in_bytes x3d name) && negb (in_bytes x00 name) && negb (in_bytes x00 v).

(** dotenv: the environment after it; None if it panics. *)
Fixpoint load (lines : list (option (bytes * bytes))) (env : list (bytes * bytes)) : option (list (bytes * bytes)) :=
  match lines with
  | Some (name, v) :: r =>
    match env_var name env with
    | Some _ => load r env
    | None => if can_set name v then load r (setenv name v env) else None
    end
  | None :: _ | [] => Some env
  end.

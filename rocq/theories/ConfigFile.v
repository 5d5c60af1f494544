(** Which configuration file is read: src/main.rs:16-31 and src/settings/mod.rs:24.

    [File::with_name(name).format(Toml)] of the config crate (Cargo.toml: config = "0.10") takes the file with
    exactly this name, or else the one that has the extension toml in place of its own ([PathBuf::set_extension]).
    A path is its bytes. The file system is a function: None if there is no regular file with this path, Some None if it cannot be
    read.  The TOML parser is a parameter.  Simplification: links are not followed (two paths are two files), and
    the command line is the value of the option -c, if it is given. *)
From Verif Require Import Base Utf8 HashMap Settings.

Definition slash : byte := x2f.
Definition dot : byte := x2e.

(** Path::join on Unix *)
Definition join (dir name : bytes) : bytes :=
  match name with
  | b :: _ =>
    if byte_eqb b slash then name
    else match rev dir with
         | c :: _ => if byte_eqb c slash then dir ++ name else dir ++ slash :: name
         | [] => name
         end
  | [] => match rev dir with
          | c :: _ => if byte_eqb c slash then dir else dir ++ [slash]
          | [] => []
          end
  end.

(** Path::components from the end, on the reversed path: separators and "." are not components. *)
Fixpoint skip_tail (r : bytes) : bytes :=
  match r with
  | b :: r1 =>
    if byte_eqb b slash then skip_tail r1
    else match r1 with
         | c :: r2 => if byte_eqb b dot && byte_eqb c slash then skip_tail r2 else r
         | [] => r
         end
  | [] => []
  end.

Fixpoint until_slash (r : bytes) : bytes * bytes :=
  match r with
  | b :: r' => if byte_eqb b slash then ([], r) else let '(n, m) := until_slash r' in (b :: n, m)
  | [] => ([], [])
  end.

(** What follows the first dot. *)
Fixpoint after_dot (r : bytes) : option bytes :=
  match r with
  | b :: r' => if byte_eqb b dot then Some r' else after_dot r'
  | [] => None
  end.

(** Path::file_stem of a reversed name *)
Definition stem (n : bytes) : bytes :=
  match after_dot n with
  | Some (b :: m) => b :: m
  | _ => n
  end.

(** PathBuf::set_extension("toml"); an absolute path *)
Definition with_toml (p : bytes) : bytes :=
  let '(n, m) := until_slash (skip_tail (rev p)) in
  match n with
  | [] => p
  | _ => if bytes_eqb n [dot; dot] then p else rev (stem n ++ m) ++ str ".toml"
  end.

Definition file_system : Type := bytes -> option (option bytes).

Definition is_file (files : file_system) (p : bytes) : bool := match files p with Some _ => true | None => false end.

(** FileSourceFile::find_file, with the current directory *)
Definition find_file (files : file_system) (dir name : bytes) : option bytes :=
  let p := join dir name in
  if is_file files p then Some p
  else if is_file files (with_toml p) then Some (with_toml p) else None.

(** settings/mod.rs:24: the table of the file. [dir] is None if there is no current directory. *)
Definition config_table (toml : bytes -> option (hmap value)) (files : file_system) (dir : option bytes) (name : bytes)
    : option (hmap value) :=
  match dir with
  | None => None
  | Some d =>
    match find_file files d name with
    | None => None
    | Some p =>
      match files p with
      | Some (Some text) => if utf8_ok text then toml text else None
      | _ => None
      end
    end
  end.

(** main.rs:16-31 *)
Definition config_name (argument : option bytes) : bytes :=
  match argument with Some name => name | None => str "/etc/ratelmq/ratelmq.conf" end.

(** src/settings/mod.rs: the settings, from the configuration file and the environment.

    The file is given by its result: None (it cannot be read or is not TOML) or the table that is there after it was
    merged into the empty configuration.  The
    environment is given as the list of its variables after dotenv (main.rs:8), in the order of [env::vars].
    The config crate (Cargo.toml: config = "0.10") is modelled as far as [Settings::new] uses it:
    - [Environment::collect]: the variables whose name starts with the prefix and an underscore, in any case; the
      rest of the name with "__" replaced by "." and in lower case; a later variable with the same key wins; an
      empty value counts.  [env::vars] panics if any name or value in the environment is not Unicode.
    - [Source::collect_to]: the pairs of that HashMap are set one after another, in the order of its iteration; a
      key that is not a path (identifiers separated by ".") is set as it stands at the root.
    - [Expression::set]: tables are made on the way, in place of what is there if it is not a table.
    - serde: a struct is read from a table, missing fields are an error and others are skipped, or from an array,
      by position; String takes a string or the text of a number or boolean; Vec takes an array only.
    Simplification: names of variables are of letters, digits and underscores ([plain_name]); brackets, dots or
    other characters in names with the prefix are not modelled. *)
From Verif Require Import Base Utf8 HashMap Startup.
Open Scope N_scope.

(** config::ValueKind; a TOML date is a string there. *)
Inductive value :=
| VNil
| VScalar (shown : bytes)     (* Boolean, Integer, Float, by their [to_string] *)
| VString (s : bytes)
| VArray (l : list value)
| VTable (m : hmap value).

(** ** The environment *)

Definition lower (b : byte) : byte := if (65 <=? b2n b) && (b2n b <=? 90) then n2b (b2n b + 32) else b.

Definition plain_char (b : byte) : bool :=
  let n := b2n b in
  ((48 <=? n) && (n <=? 57)) || ((65 <=? n) && (n <=? 90)) || ((97 <=? n) && (n <=? 122)) || (n =? 95).

Definition plain_name (s : bytes) : bool := forallb plain_char s.

(** str::strip_prefix *)
Fixpoint after_prefix (p s : bytes) : option bytes :=
  match p, s with
  | [], _ => Some s
  | x :: p', y :: s' => if byte_eqb x y then after_prefix p' s' else None
  | _, [] => None
  end.

(** mod.rs:25, with the underscore the crate adds *)
Definition env_prefix : bytes := str "ratelmq_".

(** [key.replace("__", ".")] and the parts between the dots: the path, if no part is empty. *)
Fixpoint parts (cur : bytes) (s : bytes) : list bytes :=
  match s with
  | [] => [rev cur]
  | x :: s' =>
    if byte_eqb x x5f then
      match s' with
      | y :: s'' => if byte_eqb y x5f then rev cur :: parts [] s'' else parts (x :: cur) s'
      | [] => parts (x :: cur) s'
      end
    else parts (x :: cur) s'
  end.

(** The key of a variable: its path from the root.  A key that is no path becomes one identifier, which contains a
    dot or is empty. *)
Definition dotted (ps : list bytes) : bytes :=
  match ps with [] => [] | p :: ps' => p ++ flat_map (fun q => x2e :: q) ps' end.

Definition key_of (name : bytes) : option (list bytes) :=
  match after_prefix env_prefix (map lower name) with
  | None => None
  | Some rest =>
    let ps := parts [] rest in
    Some (if existsb (fun p => match p with [] => true | _ => false end) ps then [dotted ps] else ps)
  end.

(** The key as the text the crate's HashMap is keyed by. *)
Definition collect_step (m : hmap (list bytes * bytes)) (v : bytes * bytes) : hmap (list bytes * bytes) :=
  match key_of (fst v) with
  | Some k => hm_insert (dotted k) (k, snd v) m
  | None => m
  end.

(** Environment::collect *)
Definition collect (env : list (bytes * bytes)) : hmap (list bytes * bytes) := fold_left collect_step env [].

Definition unicode (env : list (bytes * bytes)) : bool := forallb (fun v => utf8_ok (fst v) && utf8_ok (snd v)) env.

(** ** Merging *)

Definition table_of (v : value) : hmap value := match v with VTable m => m | _ => [] end.

(** Expression::set *)
Fixpoint set_path (ks : list bytes) (new : value) (root : value) : value :=
  match ks with
  | [] => new
  | k :: ks' =>
    let m := table_of root in
    VTable (hm_insert k (set_path ks' new (match hm_get k m with Some v => v | None => VNil end)) m)
  end.

Definition merge (root : value) (props : list (list bytes * bytes)) : value :=
  fold_left (fun r kv => set_path (fst kv) (VString (snd kv)) r) props root.

(** ** Reading the structs *)

(** String::deserialize *)
Definition read_string (v : value) : option bytes :=
  match v with VString s | VScalar s => Some s | _ => None end.

Fixpoint read_strings (l : list value) : option (list bytes) :=
  match l with
  | [] => Some []
  | v :: l' =>
    match read_string v, read_strings l' with
    | Some s, Some ss => Some (s :: ss)
    | _, _ => None
    end
  end.

(** Vec<String>::deserialize *)
Definition read_vec (v : value) : option (list bytes) := match v with VArray l => read_strings l | _ => None end.

(** A struct with one field, and the first of two. *)
Definition field_at (name : bytes) (v : value) : option value :=
  match v with
  | VTable m => hm_get name m
  | VArray (x :: _) => Some x
  | _ => None
  end.

(** mod.rs:4-7 *)
Definition read_mqtt (v : value) : option (list bytes) :=
  match field_at (str "listeners_tcp") v with Some x => read_vec x | None => None end.

(** mod.rs:9-12 *)
Definition read_authentication (v : value) : option bytes :=
  match field_at (str "password_file") v with Some x => read_string x | None => None end.

(** mod.rs:14-18; the root is always a table *)
Definition read_settings (root : value) : option Settings :=
  match hm_get (str "mqtt") (table_of root), hm_get (str "authentication") (table_of root) with
  | Some m, Some a =>
    match read_mqtt m, read_authentication a with
    | Some ls, Some f => Some {| listeners_tcp := ls; password_file := f |}
    | _, _ => None
    end
  | _, _ => None
  end.

(** Settings::new (mod.rs:21-28) with the file's table, and [props] the pairs of the collected HashMap in the order
    of its iteration.  None: an error, at which application.rs:22 panics, or a panic. *)
Definition Settings_new (file : option (hmap value)) (env : list (bytes * bytes)) (props : list (list bytes * bytes)) : option Settings :=
  match file with
  | None => None
  | Some t => if unicode env then read_settings (merge (VTable t) props) else None
  end.

(** The ratelmq-passwd tool (ratelmq-passwd/src/main.rs) and the part of the regex crate it uses.

    The regular expression is [escape(user) ++ ":.*\n"], case-insensitive (main.rs:28-33). Which
    texts match [escape(user)] case-insensitively is the parameter [ci user text]; the colon and the
    newline have no case variants, and [.] is any character but a newline. *)
From Verif Require Import Base Utf8 Auth.

Definition dollar : byte := x24.
Definition underscore : byte := x5f.
Definition left_brace : byte := x7b.
Definition right_brace : byte := x7d.
Definition plus : byte := x2b.

(** One match of [:.*\n] at the start of [s]: the matched text and what follows it. The newline is
    the first one, since [.] does not match newlines. *)
Definition match_tail (s : bytes) : option (bytes * bytes) :=
  match s with
  | b :: r =>
    if byte_eqb b colon then
      match split_once newline r with
      | Some (x, post) => Some (colon :: x ++ [newline], post)
      | None => None
      end
    else None
  | [] => None
  end.

(** A match at the start of [s]: some prefix matches the user name ([rev_pre] is the part of it seen
    so far, reversed), the rest starts with a match of the tail. For a given start at most one
    prefix has the right number of characters, so the order of the search does not matter. *)
Fixpoint match_here (ci : bytes -> bytes -> bool) (user rev_pre s : bytes) : option (bytes * bytes) :=
  match (if ci user (rev rev_pre) then match_tail s else None) with
  | Some (t, post) => Some (rev rev_pre ++ t, post)
  | None =>
    match s with
    | [] => None
    | b :: r => match_here ci user (b :: rev_pre) r
    end
  end.

(** The leftmost match: text before, matched text, text after. *)
Fixpoint find (ci : bytes -> bytes -> bool) (user s : bytes) : option (bytes * bytes * bytes) :=
  match match_here ci user [] s with
  | Some (m, post) => Some ([], m, post)
  | None =>
    match s with
    | [] => None
    | b :: r =>
      match find ci user r with
      | Some (pre, m, post) => Some (b :: pre, m, post)
      | None => None
      end
    end
  end.

(** regex 1.5 expand.rs: letters of an unbraced group reference *)
Definition is_cap_letter (b : byte) : bool :=
  in_range 0x30 0x39 (b2n b) || in_range 0x41 0x5A (b2n b) || in_range 0x61 0x7A (b2n b)
  || byte_eqb b underscore.

Fixpoint take_letters (s : bytes) : bytes * bytes :=
  match s with
  | b :: r => if is_cap_letter b then let '(x, y) := take_letters r in (b :: x, y) else ([], s)
  | [] => ([], [])
  end.

(** The text of a group: the expression has only group 0, the whole match, written as a number
    ([parse::<u32>], which accepts a leading plus); any other group is empty. *)
Definition group (m name : bytes) : bytes :=
  let digits := match name with b :: r => if byte_eqb b plus then r else name | [] => [] end in
  match digits with
  | [] => []
  | _ => if forallb (fun b => byte_eqb b x30) digits then m else []
  end.

(** expand.rs find_cap_ref on the text after a dollar: the name and what follows the reference *)
Definition find_cap_ref (s : bytes) : option (bytes * bytes) :=
  match s with
  | [] => None
  | b :: r =>
    if byte_eqb b left_brace then split_once right_brace r
    else match take_letters s with
         | ([], _) => None
         | (name, rest) => Some (name, rest)
         end
  end.

(** expand.rs expand_str; the fuel is the length of the text *)
Fixpoint expand (fuel : nat) (m s : bytes) : bytes :=
  match fuel with
  | O => []
  | S fuel' =>
    match s with
    | [] => []
    | b :: r =>
      if byte_eqb b dollar then
        match r with
        | d :: r' =>
          if byte_eqb d dollar then dollar :: expand fuel' m r'
          else
            match find_cap_ref r with
            | None => dollar :: expand fuel' m r
            | Some (name, rest) => group m name ++ expand fuel' m rest
            end
        | [] => [dollar]
        end
      else b :: expand fuel' m r
    end
  end.

Definition expand_str (m s : bytes) : bytes := expand (length s) m s.

(** [str::replace("$", "$$")] (main.rs:41) *)
Definition double_dollars (s : bytes) : bytes :=
  flat_map (fun b => if byte_eqb b dollar then [dollar; dollar] else [b]) s.

(** Regex::replace: the first match only (main.rs:44-48) *)
Definition replace_first (ci : bytes -> bytes -> bool) (user s text : bytes) : bytes :=
  match find ci user s with
  | None => s
  | Some (pre, m, post) => pre ++ expand_str m text ++ post
  end.

(** main.rs:104-116, [hash] being the argon2 hash of the password with a fresh salt *)
Definition build_entry (user hash : bytes) : bytes := user ++ colon :: hash ++ [newline].

(** What the tool is asked to do; clap makes --password and --delete exclusive and one of them
    mandatory (main.rs:83-100). *)
Inductive request := SetPassword (hash : bytes) | DeleteUser.

(** main.rs:35-57: the new content of the file, [None] if it is not written *)
Definition update (ci : bytes -> bytes -> bool) (user : bytes) (req : request) (credentials : bytes)
    : option bytes :=
  match find ci user credentials with
  | Some _ =>
    let text := match req with
                | DeleteUser => []
                | SetPassword hash => double_dollars (build_entry user hash)
                end in
    Some (replace_first ci user credentials text)
  | None =>
    match req with
    | SetPassword hash => Some (credentials ++ build_entry user hash)
    | DeleteUser => None
    end
  end.

(** The content of the file after running the tool *)
Definition run_passwd (ci : bytes -> bytes -> bool) (user : bytes) (req : request) (credentials : bytes) : bytes :=
  match update ci user req credentials with
  | Some content => content
  | None => credentials
  end.

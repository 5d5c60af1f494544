(** FileIdentityManager (src/broker/authentication.rs) and the part of std's text handling it uses.

    Strings are their UTF-8 bytes; the characters the code looks for are ASCII, so they cannot occur
    inside another character. *)
From Verif Require Import Base Utf8 HashMap.

Definition newline : byte := x0a.
Definition carriage_return : byte := x0d.
Definition colon : byte := x3a.

(** [str::split_inclusive('\n')]: the pieces, without their newline, and whether they had one. *)
Fixpoint pieces (s : bytes) : list (bytes * bool) :=
  match s with
  | [] => []
  | b :: r =>
    if byte_eqb b newline then ([], true) :: pieces r
    else match pieces r with
         | [] => [([b], false)]
         | (l, t) :: ps => (b :: l, t) :: ps
         end
  end.

(** [strip_suffix('\r')] *)
Fixpoint strip_cr (l : bytes) : bytes :=
  match l with
  | [] => []
  | [b] => if byte_eqb b carriage_return then [] else [b]
  | b :: r => b :: strip_cr r
  end.

(** [str::lines]. Before Rust 1.66 a last line without newline loses a final carriage return too
    ([bare_cr]), since then it keeps it; the theorems hold for both. *)
Definition lines (bare_cr : bool) (s : bytes) : list bytes :=
  map (fun '(l, t) => if t || bare_cr then strip_cr l else l) (pieces s).

(** [str::split_once(c)] *)
Fixpoint split_once (c : byte) (s : bytes) : option (bytes * bytes) :=
  match s with
  | [] => None
  | b :: r =>
    if byte_eqb b c then Some ([], r)
    else match split_once c r with
         | Some (x, y) => Some (b :: x, y)
         | None => None
         end
  end.

(** authentication.rs:33-38; [InvalidPassword] is never constructed *)
Inductive FileIdentityManagerError := FileError | InvalidEntry.

(** authentication.rs:46-48: passwords_by_username *)
Definition FileIdentityManager : Type := hmap bytes.

(** The loop of lines 56-62 *)
Fixpoint load_entries (ls : list bytes) (m : FileIdentityManager) : FileIdentityManager + FileIdentityManagerError :=
  match ls with
  | [] => inl m
  | line :: ls' =>
    match split_once colon line with
    | None => inr InvalidEntry
    | Some (username, password) => load_entries ls' (hm_insert username password m)
    end
  end.

(** FileIdentityManager::new (51-69). [file] is the content of the file, [None] if it cannot be
    read; [read_to_string] also fails when the content is not UTF-8. *)
Definition FileIdentityManager_new (bare_cr : bool) (file : option bytes)
    : FileIdentityManager + FileIdentityManagerError :=
  match file with
  | None => inr FileError
  | Some credentials =>
    if utf8_ok credentials then load_entries (lines bare_cr credentials) []
    else inr FileError
  end.

(** authentication.rs:12-19 *)
Inductive AuthenticationError (E : Type) :=
| UserNotFound
| InvalidPassword
| EncryptionError (e : E).
Arguments UserNotFound {E}.
Arguments InvalidPassword {E}.
Arguments EncryptionError {E} e.

(** authenticate (72-85). The argon2 crate is a parameter: [parse] is PasswordHash::new, [verify] is
    Argon2::verify_password (true = Ok). [None] is Ok. *)
Definition authenticate {H E : Type} (parse : bytes -> H + E) (verify : bytes -> H -> bool)
    (m : FileIdentityManager) (username password : bytes) : option (AuthenticationError E) :=
  match hm_get username m with
  | None => Some UserNotFound
  | Some password_hash =>
    match parse password_hash with
    | inr e => Some (EncryptionError e)
    | inl parsed_hash => if verify password parsed_hash then None else Some InvalidPassword
    end
  end.

(** How the broker starts: src/main.rs, src/application.rs:14-62, src/broker/client_packet_handler.rs:33-52,
    src/mqtt/listener.rs:22-41.

    What is outside the program is given as its result: the commit hash the binary was built with, the settings
    (None: the file cannot be read or parsed, or a key is missing), the content of the password file, and whether
    the system binds an address (any answer each time; parsing the address is part of it).  Before [ready] the
    process has no handler for Ctrl-C, so the signal just kills it; that is not a step. *)
From Verif Require Import Base HashMap Auth Handler System.
Open Scope nat_scope.

(** settings/mod.rs:4-18 *)
Record Settings := { listeners_tcp : list bytes; password_file : bytes }.

Record world := { commit_hash : bytes; config : option Settings; file : bytes -> option bytes }.

(** A byte 10xxxxxx, which is inside a character. *)
Definition inside_char (b : byte) : bool := N.eqb (N.land (b2n b) 192) 128.

(** Whether [&s[..n]] is a slice: str::is_char_boundary. *)
Definition slice_ok (n : nat) (s : bytes) : bool :=
  match nth_error s n with
  | Some b => negb (inside_char b)
  | None => Nat.eqb (length s) n
  end.

(** Up to the first task started (application.rs:15-41): the addresses and the identities, None if it panics.
    main.rs:11 takes the same slice of the hash before. *)
Definition prepare (bare_cr : bool) (w : world) : option (list bytes * FileIdentityManager) :=
  if slice_ok 10 (commit_hash w) then
    match config w with
    | None => None                                                        (* application.rs:22 *)
    | Some settings =>
      match FileIdentityManager_new bare_cr (file w (password_file settings)) with
      | inr _ => None                                                     (* client_packet_handler.rs:41 *)
      | inl manager => Some (listeners_tcp settings, manager)
      end
    end
  else None.

(** The handler and the service run; [todo]: the addresses still to be bound, None when the loop is over. *)
Record bsys := { core : sys; todo : option (list bytes) }.

Inductive blabel :=
| BBind (ok : bool)      (* application.rs:51-61, one turn *)
| BReady                 (* application.rs:62-64 *)
| BStep (l : label).

Definition boot_init (addresses : list bytes) : bsys := {| core := sys_init 0; todo := Some addresses |}.

Definition boot_step (auth : bytes -> bytes -> bool) (dbg : bool) (b : bsys) (l : blabel) : option bsys :=
  match l, todo b with
  | BBind ok, Some (a :: rest) =>
    if running (core b) then
      if ok then Some {| core := set_listeners (S (listeners (core b))) (core b); todo := Some rest |}
      else Some {| core := set_main MPanicked (core b); todo := todo b |}   (* listener.rs:30 *)
    else None
  | BReady, Some [] => Some {| core := core b; todo := None |}
  | BStep l, t =>
    match t, l with
    | Some _, LCtrlC | Some _, LMain => None
    | _, _ => match step auth dbg (core b) l with
              | Some s => Some {| core := s; todo := t |}
              | None => None
              end
    end
  | _, _ => None
  end.

Fixpoint boot_steps (auth : bytes -> bytes -> bool) (dbg : bool) (b : bsys) (ls : list blabel) : option bsys :=
  match ls with
  | [] => Some b
  | l :: ls' => match boot_step auth dbg b l with
                | Some b' => boot_steps auth dbg b' ls'
                | None => None
                end
  end.

Definition booted (auth : bytes -> bytes -> bool) (dbg : bool) (addresses : list bytes) (b : bsys) : Prop :=
  exists ls, boot_steps auth dbg (boot_init addresses) ls = Some b.

(** The password file while several processes use it: runs of the tool (ratelmq-passwd/src/main.rs:35-57) and
    starting brokers (src/broker/authentication.rs:52).

    [std::fs::read_to_string] reads at its own offset, some bytes at a time, until a read returns nothing;
    [std::fs::write] opens with truncation and then writes at its own offset, some bytes at a time.  Processes may be
    interleaved in any way and killed at any time.  A write beyond the end of the file fills the hole with zeros.
    Failing system calls are like being killed. *)
From Verif Require Import Base Utf8 Auth Passwd.
Open Scope nat_scope.

Inductive proc :=
| Reads (tool : option (bytes * request)) (got : bytes)   (* read_to_string; None: the broker *)
| Opens (new : bytes)                                     (* main.rs:56, before the file is opened *)
| Writes (off : nat) (new : bytes)                        (* main.rs:56, truncated and [off] bytes written *)
| Loaded (got : bytes)                                    (* the broker has the content *)
| Ended                                                   (* the tool has returned from main *)
| Dead.                                                   (* panicked or killed *)

Record files := { content : bytes; procs : list proc }.

Inductive flabel := FRead (k n : nat) | FOpen (k : nat) | FWrite (k n : nat) | FKill (k : nat).

Fixpoint set_proc (k : nat) (p : proc) (l : list proc) : list proc :=
  match l, k with
  | [], _ => []
  | _ :: l', O => p :: l'
  | q :: l', S k' => q :: set_proc k' p l'
  end.

Definition write_at (off : nat) (piece old : bytes) : bytes :=
  firstn off (old ++ repeat x00 (off - length old)) ++ piece ++ skipn (off + length piece) old.

(** The read returned nothing: read_to_string checks the text, the tool goes on to its update. *)
Definition has_read (ci : bytes -> bytes -> bool) (tool : option (bytes * request)) (got : bytes) : proc :=
  match tool with
  | None => Loaded got
  | Some (user, req) =>
    if utf8_ok got then match update ci user req got with Some new => Opens new | None => Ended end
    else Dead                                                             (* main.rs:35, unwrap *)
  end.

(** [FRead k n] and [FWrite k n]: at most [n + 1] bytes. *)
Definition fstep (ci : bytes -> bytes -> bool) (f : files) (l : flabel) : option files :=
  match l with
  | FRead k n =>
    match nth_error (procs f) k with
    | Some (Reads tool got) =>
      let p := match firstn (S n) (skipn (length got) (content f)) with
               | [] => has_read ci tool got
               | piece => Reads tool (got ++ piece)
               end in
      Some {| content := content f; procs := set_proc k p (procs f) |}
    | _ => None
    end
  | FOpen k =>
    match nth_error (procs f) k with
    | Some (Opens new) => Some {| content := []; procs := set_proc k (Writes 0 new) (procs f) |}
    | _ => None
    end
  | FWrite k n =>
    match nth_error (procs f) k with
    | Some (Writes off new) =>
      match firstn (S n) (skipn off new) with
      | [] => Some {| content := content f; procs := set_proc k Ended (procs f) |}
      | piece => Some {| content := write_at off piece (content f); procs := set_proc k (Writes (off + length piece) new) (procs f) |}
      end
    | _ => None
    end
  | FKill k =>
    match nth_error (procs f) k with
    | Some _ => Some {| content := content f; procs := set_proc k Dead (procs f) |}
    | None => None
    end
  end.

Fixpoint fsteps (ci : bytes -> bytes -> bool) (f : files) (ls : list flabel) : option files :=
  match ls with
  | [] => Some f
  | l :: ls' => match fstep ci f l with Some f' => fsteps ci f' ls' | None => None end
  end.

(** The broker of System.v when the process may have only so many client sockets open
    (src/mqtt/listener.rs:52-64). *)
From Verif Require Import Base Packets HashMap Messaging Handler ReadStream WriteStream Conn System.

(** The two halves of a socket (listener.rs:71) share one descriptor. It is closed when both are dropped: the read half
    at the end of the read task (line 83), the write half at the end of the write task (line 77). *)
Definition held (c : cstate) : bool :=
  match c_reader c, c_writer c with RDone, WClosed _ => false | _, _ => true end.

Definition open_sockets (s : sys) : nat := length (filter held (conns s)).

(** As [step], but [listener.accept()] (line 53) fails while [limit] sockets are open. The error is logged
    (lines 60-62) and the loop goes on: no step. Descriptors used for anything else are not counted. *)
Definition nstep (auth : bytes -> bytes -> bool) (dbg : bool) (limit : nat) (s : sys) (l : label) : option sys :=
  match l with
  | LAccept _ _ _ => if (open_sockets s <? limit)%nat then step auth dbg s l else None
  | _ => step auth dbg s l
  end.

Fixpoint nsteps (auth : bytes -> bytes -> bool) (dbg : bool) (limit : nat) (s : sys) (ls : list label) : option sys :=
  match ls with
  | [] => Some s
  | l :: ls' => match nstep auth dbg limit s l with Some s' => nsteps auth dbg limit s' ls' | None => None end
  end.

Definition nreachable auth dbg limit n s := exists ls, nsteps auth dbg limit (sys_init n) ls = Some s.

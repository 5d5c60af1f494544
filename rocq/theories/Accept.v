(** The broker of Sockets.v with the connections that the kernel has made and no listener has accepted yet, and the
    failing accepts (src/mqtt/listener.rs:40-64).

    Each listener (application.rs:48-60) has a queue of its own in the kernel. [TcpListener::accept] takes the first
    connection out of it. While the process has [limit] sockets open, accept(2) fails with EMFILE and leaves the queue as
    it is; tokio keeps the listener ready (it clears the readiness on WouldBlock only), so the next call fails again at
    once. The error is logged (line 61), and the loop of [start_accepting] goes round.

    Simplifications: the errors accept(2) can give for a connection that was aborted in the queue are left out (such a
    connection is accepted and its reads fail), and descriptors other than the client sockets are not counted
    (Sockets.v). *)
From Verif Require Import Base Packets HashMap Messaging Handler ReadStream WriteStream Conn System Sockets Logging.

(** What is known of a connection in the queue: what will come in, how writes will go, the address. *)
Definition knocker : Type := rsock * wsock * N.

Record front := {
  inside : sys;
  queues : list (option (list knocker));   (* by listener; [None] once it has stopped *)
  came : list (nat * knocker);             (* record: who was queued, where *)
  entered : list (nat * knocker)           (* record: who was accepted, where *)
}.

Definition front_init (n : nat) : front :=
  {| inside := sys_init n; queues := repeat (Some []) n; came := []; entered := [] |}.

Inductive flabel :=
| FKnock (i : nat) (p : knocker)   (* a client connects to the i-th address *)
| FAccept (i : nat)                (* the i-th listener calls accept, and the queue is not empty *)
| FStop (i : nat)                  (* the i-th listener sees ctrl-c *)
| FInside (l : label).             (* anything else *)

Definition set_queue (i : nat) (q : option (list knocker)) (l : list (option (list knocker))) :=
  firstn i l ++ match skipn i l with [] => [] | _ :: r => q :: r end.

(** [backlog] is the length of the kernel's queue (tokio asks for 1024): what comes beyond is refused. *)
Definition fstep (auth : bytes -> bytes -> bool) (dbg : bool) (limit backlog : nat) (f : front) (l : flabel) : option front :=
  match l with
  | FKnock i p =>
    match nth_error (queues f) i with
    | Some (Some q) =>
      if running (inside f) then
        if (length q <? backlog)%nat then
          Some {| inside := inside f; queues := set_queue i (Some (q ++ [p])) (queues f); came := came f ++ [(i, p)]; entered := entered f |}
        else Some f
      else None
    | _ => None
    end
  | FAccept i =>
    match nth_error (queues f) i with
    | Some (Some (p :: q)) =>
      if running (inside f) then
        if (open_sockets (inside f) <? limit)%nat then          (* lines 54-59 *)
          match step auth dbg (inside f) (LAccept (fst (fst p)) (snd (fst p)) (snd p)) with
          | Some s' => Some {| inside := s'; queues := set_queue i (Some q) (queues f); came := came f; entered := entered f ++ [(i, p)] |}
          | None => None
          end
        else Some f                                             (* lines 60-62 *)
      else None
    | _ => None
    end
  | FStop i =>
    match nth_error (queues f) i with
    | Some (Some _) =>
      match step auth dbg (inside f) LStopListener with
      | Some s' => Some {| inside := s'; queues := set_queue i None (queues f); came := came f; entered := entered f |}
      | None => None
      end
    | _ => None
    end
  | FInside l =>
    match l with
    | LAccept _ _ _ | LStopListener => None
    | _ =>
      match step auth dbg (inside f) l with
      | Some s' => Some {| inside := s'; queues := queues f; came := came f; entered := entered f |}
      | None => None
      end
    end
  end.

(** The records of a step that is not one of System.v (line 61); those of the others are in Logging.v. *)
Definition front_entries (L : library) (limit : nat) (f : front) (l : flabel) : list entry :=
  match l with
  | FAccept i =>
    match nth_error (queues f) i with
    | Some (Some (_ :: _)) =>
      if (open_sockets (inside f) <? limit)%nat then []
      else [entry_of Error (str "Error while accepting connection: " ++ of_error L)]
    | _ => []
    end
  | _ => []
  end.

Fixpoint fsteps auth dbg limit backlog (f : front) (ls : list flabel) : option front :=
  match ls with
  | [] => Some f
  | l :: ls' => match fstep auth dbg limit backlog f l with Some f' => fsteps auth dbg limit backlog f' ls' | None => None end
  end.

Fixpoint front_log L auth dbg limit backlog (f : front) (ls : list flabel) : list entry :=
  match ls with
  | [] => []
  | l :: ls' =>
    match fstep auth dbg limit backlog f l with
    | Some f' => front_entries L limit f l ++ front_log L auth dbg limit backlog f' ls'
    | None => []
    end
  end.

(** The end of the process.

    [#[tokio::main]] (src/main.rs:6) drops the runtime when [main] has returned or panicked, that is after [run]
    (src/application.rs:14-76) did. As tokio documents ("Tasks spawned through Runtime::spawn keep running until
    they yield. Then they are dropped. ... The thread initiating the shutdown blocks until all spawned work has
    been stopped. ... The Drop implementation waits forever for this."), each task that is left is dropped where it
    next awaits something, and the process ends when none is left. tokio is not in /repo; this is trusted.

    The worker threads do the dropping, one by one here; in between, tasks that are left may still take steps.
    That [run] cannot bind an address and panics while it starts (C96) is not part of this model (it is in Abort.v), and no
    signal but SIGINT is: after the first [signal::ctrl_c()] (application.rs:64) tokio's handler for it stays
    installed, so that further ones have no effect and have no label here. *)
From Verif Require Import Base Packets Messaging Handler Decoder ReadStream Conn WriteStream System Pool.

(** What tokio::spawn was called for: listener.rs:76, 82; application.rs:40, 42, 59 (the one of
    listener.rs:56 only starts the two of a connection). *)
Inductive task :=
| TaskReader (k : conn)
| TaskWriter (k : conn)
| TaskHandler
| TaskListener
| TaskService.

(** A task is dropped with what it owns: the receivers of the write task and the handler and what is in them. *)
Definition drop_task (s : sys) (t : task) : option sys :=
  match t with
  | TaskReader k =>
    match nth_error (conns s) k with
    | Some c => match c_reader c with RDone => None | _ => Some (set_conn k (set_reader RDone c) s) end
    | None => None
    end
  | TaskWriter k =>
    match nth_error (conns s) k with
    | Some c =>
      match c_writer c with
      | WClosed _ => None
      | WIdle ws | WBusy _ ws => Some (set_conn k (set_writer (WClosed ws) (set_queue [] c)) s)
      end
    | None => None
    end
  | TaskHandler => if handler_alive (hdl s) then Some (set_events [] (set_hdl HStopped s)) else None
  | TaskListener => match listeners s with S n => Some (set_listeners n s) | O => None end
  | TaskService => if service_running s then Some (set_service_running false s) else None
  end.

(** Does the handler wait for an answer of the service? *)
Definition asks_service (s : sys) : bool := match hdl s with HBusy _ (Call _ _) => true | _ => false end.

(** A step of a task that is left; tasks do not look at where main is. When the service has been dropped before the
    handler, [messaging_tx.send] or [rx.await] returns an error and the handler unwraps it
    (client_packet_handler.rs:140-141 and likewise for every operation). *)
Definition task_step (auth : bytes -> bytes -> bool) (dbg : bool) (s : sys) (l : label) : option sys :=
  if on_worker l then
    match l, asks_service s && negb (service_running s) with
    | LHandler _, true => Some (panic_handler s)
    | _, _ =>
      match step auth dbg (set_main MServing s) l with
      | Some s' => Some (set_main (main s) s')
      | None => None
      end
    end
  else None.

Inductive xlabel :=
| XRun (l : plabel)    (* before main ends *)
| XTask (l : label)    (* after: a step of a task that is left *)
| XSpin (k : conn)     (* a read task that is left begins to spin *)
| XDrop (t : task).    (* a task that does not spin is dropped *)

Definition spins (p : pool) (t : task) : bool :=
  match t with TaskReader k => existsb (Nat.eqb k) (spinning p) | _ => false end.

Definition end_step (auth : bytes -> bytes -> bool) (dbg : bool) (workers : nat) (p : pool) (l : xlabel) : option pool :=
  match l with
  | XRun l => pool_step auth dbg workers p l
  | _ =>
    if negb (running (base p)) && (length (spinning p) <? workers) then
      match l with
      | XRun _ => None
      | XTask l =>
        match task_step auth dbg (base p) l with
        | Some s => Some {| base := s; spinning := spinning p |}
        | None => None
        end
      | XSpin k =>
        if negb (existsb (Nat.eqb k) (spinning p))
           && match nth_error (conns (base p)) k with Some c => hangs dbg c | None => false end
        then Some {| base := base p; spinning := k :: spinning p |}
        else None
      | XDrop t =>
        if spins p t then None
        else match drop_task (base p) t with
             | Some s => Some {| base := s; spinning := spinning p |}
             | None => None
             end
      end
    else None
  end%nat.

Fixpoint end_steps auth dbg workers (p : pool) (ls : list xlabel) : option pool :=
  match ls with
  | [] => Some p
  | l :: ls' => match end_step auth dbg workers p l with Some p' => end_steps auth dbg workers p' ls' | None => None end
  end.

(** Main has ended and no task is left: the process is gone. *)
Definition gone (p : pool) : bool :=
  negb (running (base p))
  && forallb (fun c => match c_reader c with RDone => true | _ => false end
                       && match c_writer c with WClosed _ => true | _ => false end) (conns (base p))
  && negb (handler_alive (hdl (base p))) && Nat.eqb (listeners (base p)) 0 && negb (service_running (base p)).

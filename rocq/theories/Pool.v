(** The broker on a fixed number of worker threads.

    [#[tokio::main]] (src/main.rs:6) starts tokio's multi-threaded runtime: spawned tasks (the
    listeners, the read and write tasks of all connections, the event handler, the messaging service)
    take turns on a fixed number of threads, one per core, and change places only where they await
    something that is not ready. The loop of get_bytes (src/mqtt/transport/mqtt_bytes_stream.rs:218-239) with
    no capacity left in the buffer never does: it waits for 0 bytes, which are there, again and again. So a
    task that spins ([RHung]) keeps its thread for ever. The future of [run] (src/application.rs:14-76) is
    executed by the main thread.

    Any worker may run any task that is not spinning; tokio's queues (which can keep a runnable task behind
    a spinning one even while another worker is idle) and its timer and I/O driver are not modelled, so
    there are at least as many runs here as in reality. *)
From Verif Require Import Base Packets Messaging Decoder ReadStream Conn System.

(** [spinning]: connections whose read task occupies a thread. *)
Record pool := { base : sys; spinning : list conn }.

Definition pool_init (n : nat) : pool := {| base := sys_init n; spinning := [] |}.

(** The next read of this connection's read task spins. *)
Definition hangs (dbg : bool) (c : cstate) : bool :=
  match c_reader c with
  | RFirst rs | RLoop _ rs => match stream_read_packet dbg rs with RHung => true | _ => false end
  | RPush _ _ _ | RDone => false
  end.

(** ctrl-c and the shutdown sequence are on the main thread, all else is done by workers. *)
Definition on_worker (l : label) : bool := match l with LCtrlC | LMain => false | _ => true end.

Inductive plabel :=
| PStep (l : label)   (* a step of the broker *)
| PSpin (k : conn).   (* the read task of [k] is scheduled and spins from now on *)

Definition pool_step (auth : bytes -> bytes -> bool) (dbg : bool) (workers : nat) (p : pool) (l : plabel) : option pool :=
  match l with
  | PStep l =>
    if on_worker l && negb (length (spinning p) <? workers) then None
    else match step auth dbg (base p) l with
         | Some s => Some {| base := s; spinning := spinning p |}
         | None => None
         end
  | PSpin k =>
    if running (base p) && (length (spinning p) <? workers) && negb (existsb (Nat.eqb k) (spinning p))
       && match nth_error (conns (base p)) k with Some c => hangs dbg c | None => false end
    then Some {| base := base p; spinning := k :: spinning p |}
    else None
  end%nat.

Fixpoint pool_steps auth dbg workers (p : pool) (ls : list plabel) : option pool :=
  match ls with
  | [] => Some p
  | l :: ls' => match pool_step auth dbg workers p l with Some p' => pool_steps auth dbg workers p' ls' | None => None end
  end.

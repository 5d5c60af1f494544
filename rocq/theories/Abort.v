(** A start that fails at an address, and the end of the process that follows.

    [run] binds its addresses one after the other (src/application.rs:50-61) and panics if one cannot be bound
    (src/mqtt/listener.rs:30); those bound before are being served meanwhile (Startup.v). The panic drops what [run]
    owns, among it [ctrl_c_tx] (application.rs:26): then [ctrl_c_rx.recv()] returns (an error, which listener.rs:46 and
    client_packet_handler.rs:57 do not look at), as it would after the signal. After that the runtime is dropped as in
    Teardown.v. [run] is on the main thread, so binding needs no free worker thread.

    Simplification: as in Startup.v, Ctrl-C before [signal::ctrl_c] is called, which kills the process, is no step. *)
From Verif Require Import Base Packets Handler System Pool Teardown.

(** [unbound]: the addresses still to be bound, None when the loop is over. *)
Record starting := { threads : pool; unbound : option (list bytes) }.

Definition starting_init (addresses : list bytes) : starting :=
  {| threads := {| base := sys_init 0; spinning := [] |}; unbound := Some addresses |}.

Inductive alabel :=
| ABind (ok : bool)        (* application.rs:50-61, one turn *)
| AReady                   (* application.rs:62-64 *)
| AThreads (l : xlabel).   (* a step of the threads, or of main after the loop *)

Definition set_base (s : sys) (p : pool) : pool := {| base := s; spinning := spinning p |}.

Definition on_main (l : xlabel) : bool := match l with XRun (PStep l) => negb (on_worker l) | _ => false end.

Definition astep (auth : bytes -> bytes -> bool) (dbg : bool) (workers : nat) (b : starting) (l : alabel) : option starting :=
  let s := base (threads b) in
  match l with
  | ABind ok =>
    match unbound b with
    | Some (_ :: rest) =>
      if running s then
        if ok then Some {| threads := set_base (set_listeners (S (listeners s)) s) (threads b); unbound := Some rest |}
        else Some {| threads := set_base (set_main MPanicked (set_ctrl_c true s)) (threads b); unbound := unbound b |}
      else None
    | _ => None
    end
  | AReady =>
    match unbound b with
    | Some [] => Some {| threads := threads b; unbound := None |}
    | _ => None
    end
  | AThreads l =>
    match unbound b with
    | Some _ => if on_main l then None
                else match end_step auth dbg workers (threads b) l with
                     | Some p => Some {| threads := p; unbound := unbound b |}
                     | None => None
                     end
    | None => match end_step auth dbg workers (threads b) l with
              | Some p => Some {| threads := p; unbound := None |}
              | None => None
              end
    end
  end%nat.

Fixpoint asteps auth dbg workers (b : starting) (ls : list alabel) : option starting :=
  match ls with
  | [] => Some b
  | l :: ls' => match astep auth dbg workers b l with Some b' => asteps auth dbg workers b' ls' | None => None end
  end.

(** A start that fails at an address ([Abort.v]) on stacks of limited size ([Stack.v], [Drop.v]).

    The tree of subscriptions is dropped when the service ends by itself (messaging_service.rs:88, 135) and also when
    the runtime drops its task: then too each level of the tree takes a nested call. [room] and [droom] are as in
    [Drop.v]; without room the process is aborted, whatever its other threads are doing.

    Simplification: every thread has the same room. *)
From Verif Require Import Base Packets Messaging Handler System Pool Teardown Stack Drop Abort.

Record fsys := { fstart : starting; killed : bool }.

(** The step of [System.v] that this is, if any. *)
Definition inner (l : alabel) : option label :=
  match l with AThreads (XRun (PStep l)) | AThreads (XTask l) => Some l | _ => None end.

(** Is there too little room for this step? *)
Definition no_room (room droom : nat) (s : sys) (l : alabel) : bool :=
  let drops := negb (drop_on droom (subscriptions (svc s))) in
  match l with
  | AThreads (XDrop TaskService) => drops
  | _ =>
    match inner l with
    | Some LStopService => drops
    | Some (LHandler _) =>
      match hdl s with
      | HBusy _ (Call op _) => service_running s && match serve_on room (svc s) op with Some _ => false | None => true end
      | _ => false
      end
    | _ => false
    end
  end.

Definition fstep (auth : bytes -> bytes -> bool) (dbg : bool) (workers room droom : nat) (f : fsys) (l : alabel) : option fsys :=
  if killed f then None
  else match astep auth dbg workers (fstart f) l with
       | Some b =>
         if no_room room droom (base (threads (fstart f))) l then Some {| fstart := fstart f; killed := true |}
         else Some {| fstart := b; killed := false |}
       | None => None
       end.

Fixpoint fsteps auth dbg workers room droom (f : fsys) (ls : list alabel) : option fsys :=
  match ls with
  | [] => Some f
  | l :: ls' => match fstep auth dbg workers room droom f l with Some f' => fsteps auth dbg workers room droom f' ls' | None => None end
  end.

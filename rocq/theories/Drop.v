(** The end of the messaging service on stacks of limited size. When [run] (messaging_service.rs:86-136) ends it drops
    the service, and with it the tree of subscriptions: the drop glue of [SubscriptionNode]
    (subscriptions_repository.rs:126-130) drops the map of its children, which drops each of them, so it needs a
    nested call for each level of the tree. [droom]: how many of them fit on the stack of a thread; without room the
    process is aborted. The rest is as in [Stack.v], with its own [room]. *)
From Verif Require Import Base Packets HashMap Subscriptions Messaging Handler System Stack.

(** Is there room to drop this node? *)
Fixpoint drop_on (droom : nat) (n : SubscriptionNode) : bool :=
  match droom with
  | O => false
  | S droom' => match n with Node ch _ => forallb (fun x => drop_on droom' (snd x)) ch end
  end.

(** The service ends (lines 88 and 135) when the handler's [messaging_tx] is gone; then main goes on waiting for it
    (application.rs:71) or for the signal. *)
Definition dstep (auth : bytes -> bytes -> bool) (dbg : bool) (room droom : nat) (s : ssys) (l : label) : option ssys :=
  match sstep auth dbg room s l with
  | Some s' =>
    match l with
    | LStopService => if drop_on droom (subscriptions (svc (score s))) then Some s' else Some {| score := score s; aborted := true |}
    | _ => Some s'
    end
  | None => None
  end.

Fixpoint dsteps (auth : bytes -> bytes -> bool) (dbg : bool) (room droom : nat) (s : ssys) (ls : list label) : option ssys :=
  match ls with
  | [] => Some s
  | l :: ls' => match dstep auth dbg room droom s l with Some s' => dsteps auth dbg room droom s' ls' | None => None end
  end.

Definition dreachable auth dbg room droom n s := exists ls, dsteps auth dbg room droom (sinit n) ls = Some s.

(** The broker on stacks of limited size.  [remove_client] (subscriptions_repository.rs:114-123) calls itself for
    every child, so it needs a stack frame for each level of the tree; when there is no room left the process is
    aborted.  [room]: how many nested calls of it fit on the stack of a thread.  The other functions of the broker
    do not recurse.  The tree is also dropped recursively when the service ends; that comes after the last answer
    to anybody and is in [Drop.v]. *)
From Verif Require Import Base Packets HashMap Subscriptions Messaging Handler System.

(** remove_client, lines 114-123; None: no room *)
Fixpoint remove_client_on (room : nat) (client_id : ClientId) (n : SubscriptionNode) : option SubscriptionNode :=
  match room with
  | O => None
  | S room' =>
    match n with
    | Node ch cl =>
      let all := fix all (ch : hmap SubscriptionNode) : option (hmap SubscriptionNode) :=
        match ch with
        | [] => Some []
        | (k, c) :: ch' =>
          match remove_client_on room' client_id c, all ch' with
          | Some c', Some ch'' => Some ((k, c') :: ch'')
          | _, _ => None
          end
        end in
      match all ch with
      | Some ch' => Some (Node ch' (remove_first client_id cl))
      | None => None
      end
    end
  end.

(** The two operations that remove a client (messaging_service.rs:174-184) *)
Definition removal (room : nat) (m : MessagingService) (client_id : ClientId) : option (MessagingService * option Session) :=
  match remove_client_on room client_id (subscriptions m) with
  | Some subs => Some ({| sessions := hm_remove client_id (sessions m); subscriptions := subs |}, hm_get client_id (sessions m))
  | None => None
  end.

(** messaging_service.rs:88-134, as [serve] *)
Definition serve_on {R} (room : nat) (m : MessagingService) (op : MessagingOperation R) : option (MessagingService * R) :=
  match op in MessagingOperation R return MessagingService * R -> option (MessagingService * R) with
  | ConnectionLostOp c => fun _ => removal room m c
  | ConnectionDisconnected c => fun _ => removal room m c
  | _ => fun x => Some x
  end (serve m op).

Record ssys := { score : sys; aborted : bool }.

Definition sstep (auth : bytes -> bytes -> bool) (dbg : bool) (room : nat) (s : ssys) (l : label) : option ssys :=
  if aborted s then None
  else
    let go := match step auth dbg (score s) l with Some s' => Some {| score := s'; aborted := false |} | None => None end in
    match l, hdl (score s) with
    | LHandler _, HBusy tx (Call op f) =>
      if running (score s) then
        match serve_on room (svc (score s)) op with
        | Some (m, r) => Some {| score := set_hdl (HBusy tx (f r)) (set_svc m (score s)); aborted := false |}
        | None => Some {| score := score s; aborted := true |}
        end
      else None
    | _, _ => go
    end.

Fixpoint ssteps (auth : bytes -> bytes -> bool) (dbg : bool) (room : nat) (s : ssys) (ls : list label) : option ssys :=
  match ls with
  | [] => Some s
  | l :: ls' => match sstep auth dbg room s l with Some s' => ssteps auth dbg room s' ls' | None => None end
  end.

Definition sinit (n : nat) : ssys := {| score := sys_init n; aborted := false |}.

Definition sreachable auth dbg room n s := exists ls, ssteps auth dbg room (sinit n) ls = Some s.

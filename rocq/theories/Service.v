(** The messaging service as a task of its own.

    In [System.v] a call of the service is one step of the handler. Here it is what the source has: the handler
    makes a oneshot channel and sends the operation with its sending end through [messaging_tx]
    (src/application.rs:32, 32 places), the service task (src/broker/messaging/messaging_service.rs:86-136) takes
    operations in order, serves each and answers through the oneshot, and the handler waits for the answer. Both
    [unwrap]s can fail: [messaging_tx.send(op).await.unwrap()] when the service has ended,
    [rx.await.unwrap()] when the other end of the oneshot is dropped without an answer. *)
From Verif Require Import Base Packets HashMap Subscriptions Messaging Handler Decoder ReadStream Conn WriteStream System.

(** The values sent through oneshots (messaging_service.rs:22-70). In Rust the type checker sees to it that an
    operation is answered by a value of its own type; [answer_as] gives [None] for any other. *)
Inductive answer :=
| ABool (b : bool)
| AUnit
| ASession (s : option Session)
| ASessions (l : list Session)
| ACount (n : nat)
| ACode (c : SubAckReturnCode)
| ASenders (l : list conn).

Definition answer_of {R} (op : MessagingOperation R) : R -> answer :=
  match op in MessagingOperation R return R -> answer with
  | SessionExists _ => ABool
  | SessionInsert _ | UnsubscribeOp _ _ | PublishOp _ _ => fun _ => AUnit
  | SessionGet _ | ConnectionLostOp _ | ConnectionDisconnected _ => ASession
  | SessionGetExpiredKeepAlive => ASessions
  | SessionCount => ACount
  | SubscribeOp _ _ => ACode
  | SendersToPublish _ => ASenders
  end.

Definition answer_as {R} (op : MessagingOperation R) (a : answer) : option R :=
  match op in MessagingOperation R return option R with
  | SessionExists _ => match a with ABool b => Some b | _ => None end
  | SessionInsert _ | UnsubscribeOp _ _ | PublishOp _ _ => match a with AUnit => Some tt | _ => None end
  | SessionGet _ | ConnectionLostOp _ | ConnectionDisconnected _ => match a with ASession s => Some s | _ => None end
  | SessionGetExpiredKeepAlive => match a with ASessions l => Some l | _ => None end
  | SessionCount => match a with ACount n => Some n | _ => None end
  | SubscribeOp _ _ => match a with ACode c => Some c | _ => None end
  | SendersToPublish _ => match a with ASenders l => Some l | _ => None end
  end.

(** An operation in the channel. *)
Inductive operation := Operation (R : Type) (op : MessagingOperation R).
Arguments Operation {R} op.

(** Senders of connections inside an operation and inside an answer. *)
Definition senders_in_op (o : operation) : list conn :=
  match o with Operation op => match op with SessionInsert s => [s_sender s] | _ => [] end end.

Definition senders_in (a : answer) : list conn :=
  match a with
  | ASession (Some s) => [s_sender s]
  | ASessions l => map s_sender l
  | ASenders l => l
  | _ => []
  end.

Record ssys := {
  core : sys;                     (* the rest; [svc core] belongs to the service task *)
  waiting : option nat;           (* the oneshot the handler waits for, having sent the operation of its [Call] *)
  inbox : list (nat * operation); (* the messaging channel *)
  oneshots : list (nat * answer);  (* answered oneshots whose answer was not taken yet *)
  maybe_sessions : list conn;               (* senders in sessions the handler was given: on_disconnect and on_connection_lost
                                     hold [maybe_session] until they return (client_packet_handler.rs:184, 199) *)
  fresh : nat }.                  (* the next oneshot *)

Definition ssys_init (n : nat) : ssys :=
  {| core := sys_init n; waiting := None; inbox := []; oneshots := []; maybe_sessions := []; fresh := 0 |}.

Definition with_core (s : sys) (c : ssys) : ssys :=
  {| core := s; waiting := waiting c; inbox := inbox c; oneshots := oneshots c; maybe_sessions := maybe_sessions c; fresh := fresh c |}.

(** The handler panics: its senders, its oneshots and [messaging_tx] are dropped. *)
Definition s_panic (c : ssys) : ssys :=
  {| core := panic_handler (core c); waiting := None; inbox := inbox c; oneshots := []; maybe_sessions := []; fresh := fresh c |}.

Inductive slabel :=
| SStep (l : label)   (* the task or event [l] names *)
| SServe.             (* the service task takes an operation and answers it *)

Definition s_handler auth dbg (c : ssys) (now : Z) : option ssys :=
  match hdl (core c) with
  | HBusy tx (Call op f) =>
    match waiting c with
    | None =>
      if service_running (core c) then
        if length (inbox c) <? channel_size then
          Some {| core := core c; waiting := Some (fresh c); inbox := inbox c ++ [(fresh c, Operation op)];
                  oneshots := oneshots c; maybe_sessions := maybe_sessions c; fresh := S (fresh c) |}
        else None
      else Some (s_panic c)
    | Some id =>
      match find (fun x => Nat.eqb id (fst x)) (oneshots c) with
      | Some (_, a) =>
        match answer_as op a with
        | Some r => Some {| core := set_hdl (HBusy tx (f r)) (core c); waiting := None; inbox := inbox c;
                            oneshots := filter (fun x => negb (Nat.eqb id (fst x))) (oneshots c);
                            maybe_sessions := match a with ASession _ => senders_in a | _ => maybe_sessions c end; fresh := fresh c |}
        | None => None
        end
      | None => if existsb (fun x => Nat.eqb id (fst x)) (inbox c) then None else Some (s_panic c)
      end
    end
  | _ =>
    match step auth dbg (core c) (LHandler now) with
    | Some s => Some {| core := s; waiting := waiting c; inbox := inbox c; oneshots := oneshots c;
                        maybe_sessions := match hdl s with HBusy _ _ => maybe_sessions c | _ => [] end; fresh := fresh c |}
    | None => None
    end
  end%nat.

Definition s_serve (c : ssys) : option ssys :=
  if service_running (core c) then
    match inbox c with
    | (id, Operation op) :: rest =>
      let (m, r) := serve (svc (core c)) op in
      Some {| core := set_svc m (core c); waiting := waiting c; inbox := rest;
              oneshots := oneshots c ++ match waiting c with
                                      | Some id' => if Nat.eqb id id' then [(id, answer_of op r)] else []
                                      | None => []    (* nobody waits for it: [let _ = resp.send(..)] *)
                                      end;
              maybe_sessions := maybe_sessions c; fresh := fresh c |}
    | [] => None
    end
  else None.

(** Senders the model of [System.v] does not know of. *)
Definition elsewhere (c : ssys) : list conn :=
  flat_map (fun x => senders_in_op (snd x)) (inbox c) ++ flat_map (fun x => senders_in (snd x)) (oneshots c) ++ maybe_sessions c.

Definition idle_writer (s : sys) (k : conn) : bool :=
  match nth_error (conns s) k with
  | Some c => match c_writer c, c_queue c with WIdle _, [] => true | _, _ => false end
  | None => false
  end.

Definition sstep (auth : bytes -> bytes -> bool) (dbg : bool) (c : ssys) (l : slabel) : option ssys :=
  if running (core c) then
    match l with
    | SServe => s_serve c
    | SStep (LHandler now) => s_handler auth dbg c now
    | SStep LStopService =>   (* messaging_service.rs:88: [recv] gives None when the channel is empty and closed *)
      match inbox c with
      | [] => option_map (fun s => with_core s c) (step auth dbg (core c) LStopService)
      | _ => None
      end
    | SStep (LWriter k) =>
      if idle_writer (core c) k && existsb (Nat.eqb k) (elsewhere c) then None
      else option_map (fun s => with_core s c) (step auth dbg (core c) (LWriter k))
    | SStep l => option_map (fun s => with_core s c) (step auth dbg (core c) l)
    end
  else None.

Fixpoint ssteps auth dbg (c : ssys) (ls : list slabel) : option ssys :=
  match ls with
  | [] => Some c
  | l :: ls' => match sstep auth dbg c l with Some c' => ssteps auth dbg c' ls' | None => None end
  end.

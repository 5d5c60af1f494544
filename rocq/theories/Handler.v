(** The central event handler: src/broker/client_packet_handler.rs, src/mqtt/events.rs.

    Each [on_*] method is a program that calls the messaging service, waiting for the reply
    ([messaging_tx.send(op)] then [rx.await]), and sends events to connections. The service serves
    only the handler, so the [unwrap]s on its channels cannot fail while the handler runs
    (the service loop ends when [messaging_tx] is dropped, messaging_service.rs:87). *)
From Verif Require Import Base Packets HashMap Subscriptions Messaging.

(** events.rs:14-17 *)
Inductive ServerEvent :=
| ServerPacket (p : ControlPacket)   (* ServerEvent::ControlPacket *)
| ServerDisconnect.                  (* ServerEvent::Disconnect *)

(** events.rs:6-11; the address is an opaque number *)
Inductive ClientEvent :=
| Connected (c : ConnectPacket) (address : N) (tx : conn)
| ClientPacket (client_id : ClientId) (p : ControlPacket) (tx : conn)
| Disconnected (client_id : ClientId)
| ConnectionLost (client_id : ClientId).

Inductive prog :=
| Done
| Panic
| Call {R : Type} (op : MessagingOperation R) (k : R -> prog)
| Send (to : conn) (e : ServerEvent) (k : prog).   (* [.send(e).await.unwrap()] *)

(** on_connect (113-175). [auth] is the outcome of identity_provider.authenticate (true = Ok);
    [now] is Utc::now(). *)
Definition on_connect (auth : bytes -> bytes -> bool) (now : Z) (sender : conn)
    (packet : ConnectPacket) (address : N) : prog :=
  let rest :=
    Call (SessionGet (client_id packet)) (fun maybe_session =>
      let finish session_present :=
        Send sender (ServerPacket (ConnAck {| session_present := session_present;
                                              return_code := Accepted |})) Done in
      match maybe_session with
      | Some _ => finish true
      | None =>
        Call (SessionInsert (Session_new (client_id packet) address (negb (clean_session packet))
                               sender (keep_alive_seconds packet) now))
             (fun _ => finish false)
      end) in
  match user_name packet with
  | None => rest
  | Some user_name =>
    match password packet with
    | None => Panic
    | Some password =>
      if auth user_name password then rest
      else Send sender (ServerPacket (ConnAck {| session_present := false;
                                                 return_code := NotAuthorized |}))
             (Send sender ServerDisconnect Done)
    end
  end.

(** on_disconnect (177-190) *)
Definition on_disconnect (client_id : ClientId) : prog :=
  Call (ConnectionDisconnected client_id) (fun _ => Done).

(** on_connection_lost (192-205) *)
Definition on_connection_lost (client_id : ClientId) : prog :=
  Call (ConnectionLostOp client_id) (fun _ => Done).

(** The loop of on_publish (224-227) *)
Fixpoint send_to_all (senders : list conn) (e : ServerEvent) : prog :=
  match senders with
  | [] => Done
  | s :: rest => Send s e (send_to_all rest e)
  end.

(** on_publish (207-228) *)
Definition on_publish (publish : PublishPacket) : prog :=
  Call (SendersToPublish (topic (message publish))) (fun senders =>
    send_to_all senders (ServerPacket (Publish publish))).

(** The loop of on_subscribe (240-250), then [k] with all return codes *)
Fixpoint subscribe_all (client_id : ClientId) (subs : list Subscription)
    (return_codes : list SubAckReturnCode) (k : list SubAckReturnCode -> prog) : prog :=
  match subs with
  | [] => k return_codes
  | s :: rest =>
    Call (SubscribeOp client_id s) (fun code => subscribe_all client_id rest (return_codes ++ [code]) k)
  end.

(** on_subscribe (230-257) *)
Definition on_subscribe (sender : conn) (packet_id : N) (subs : list Subscription)
    (client_id : ClientId) : prog :=
  subscribe_all client_id subs [] (fun codes => Send sender (ServerPacket (SubAck packet_id codes)) Done).

(** on_unsubscribe (259-278) *)
Definition on_unsubscribe (sender : conn) (packet_id : N) (topics : list bytes)
    (client_id : ClientId) : prog :=
  Call (UnsubscribeOp client_id topics) (fun _ =>
    Send sender (ServerPacket (UnsubAck packet_id)) Done).

(** on_ping_req (280-317) *)
Definition on_ping_req (sender : conn) (client_id : ClientId) : prog :=
  Call (SessionExists client_id) (fun present =>
    if present then Send sender (ServerPacket PingResp) Done
    else Send sender ServerDisconnect Done).

(** on_packet (84-111); other packets are only logged (line 109) *)
Definition on_packet (cid : ClientId) (packet : ControlPacket) (tx : conn) : prog :=
  match packet with
  | Publish p => on_publish p
  | Subscribe i subs => on_subscribe tx i subs cid
  | Unsubscribe i topics => on_unsubscribe tx i topics cid
  | PingReq => on_ping_req tx cid
  | Disconnect => on_disconnect cid
  | _ => Done
  end.

(** The match of run (65-75) *)
Definition on_event (auth : bytes -> bytes -> bool) (now : Z) (e : ClientEvent) : prog :=
  match e with
  | Connected c address tx => on_connect auth now tx c address
  | ClientPacket cid packet tx => on_packet cid packet tx
  | Disconnected _ => Done
  | ConnectionLost cid => on_connection_lost cid
  end.

(** Running a program against the service, sends collected in order. Whether a send succeeds is
    decided in [System.v]. *)
Inductive outcome := Finished | Panicked.

Fixpoint exec (p : prog) (m : MessagingService) : MessagingService * list (conn * ServerEvent) * outcome :=
  match p with
  | Done => (m, [], Finished)
  | Panic => (m, [], Panicked)
  | Call op k => let (m', r) := serve m op in exec (k r) m'
  | Send to e k => let '(m', l, o) := exec k m in (m', (to, e) :: l, o)
  end.

(** One event. *)
Definition handle (auth : bytes -> bytes -> bool) (m : MessagingService) (te : Z * ClientEvent) :=
  exec (on_event auth (fst te) (snd te)) m.

(** Events in sequence, all sends assumed to succeed; stops at the first panic. *)
Fixpoint handle_all (auth : bytes -> bytes -> bool) (m : MessagingService) (es : list (Z * ClientEvent))
  : MessagingService * list (conn * ServerEvent) * outcome :=
  match es with
  | [] => (m, [], Finished)
  | e :: es' =>
    let '(m1, l1, o1) := handle auth m e in
    match o1 with
    | Panicked => (m1, l1, Panicked)
    | Finished => let '(m2, l2, o2) := handle_all auth m1 es' in (m2, l1 ++ l2, o2)
    end
  end.

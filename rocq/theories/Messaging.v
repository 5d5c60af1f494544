(** Sessions and the messaging service: src/broker/session/*.rs,
    src/broker/messaging/messaging_service.rs. *)
From Verif Require Import Base Packets HashMap Subscriptions.

(** Identity of a connection's [mpsc::Sender<ServerEvent>] (listener.rs:72); clones of one sender
    have the same identity. *)
Definition conn : Type := nat.

(** session_entity.rs:7-15. The IP address is an opaque number; the sender is its identity;
    [last_activity] is an instant in nanoseconds (its meaning is in [KeepAlive.v]). *)
Record Session := {
  s_client_id : ClientId;
  s_ip : N;
  s_persistent : bool;
  s_sender : conn;
  s_keep_alive_seconds : N;
  s_last_activity : Z }.

(** session_entity.rs:18-34 *)
Definition Session_new (client_id : ClientId) (ip : N) (persistent : bool) (sender : conn)
    (keep_alive_seconds : N) (last_activity : Z) : Session :=
  {| s_client_id := client_id; s_ip := ip; s_persistent := persistent; s_sender := sender;
     s_keep_alive_seconds := keep_alive_seconds; s_last_activity := last_activity |}.

(** MessagingService (messaging_service.rs:72-75) with InMemorySessionRepository
    (session_repository.rs:17-19) inlined *)
Record MessagingService := { sessions : hmap Session; subscriptions : SubscriptionNode }.

(** messaging_service.rs:78-83, session_repository.rs:57-63 *)
Definition MessagingService_new : MessagingService :=
  {| sessions := []; subscriptions := SubscriptionNode_new |}.

(** InMemorySessionRepository::insert (session_repository.rs:28-30), session_insert
    (messaging_service.rs:143-146) *)
Definition session_insert (m : MessagingService) (s : Session) : MessagingService :=
  {| sessions := hm_insert (s_client_id s) s (sessions m); subscriptions := subscriptions m |}.

(** session_exists (messaging_service.rs:139-141; session_repository.rs:32-34) *)
Definition session_exists (m : MessagingService) (client_id : ClientId) : bool :=
  hm_mem client_id (sessions m).

(** session_count (messaging_service.rs:170-172; session_repository.rs:48-50) *)
Definition session_count (m : MessagingService) : nat := hm_len (sessions m).

(** connection_lost (messaging_service.rs:174-178; session_repository.rs:44-46) *)
Definition connection_lost (m : MessagingService) (client_id : ClientId)
  : MessagingService * option Session :=
  ({| sessions := hm_remove client_id (sessions m);
      subscriptions := connections_lost (subscriptions m) client_id |},
   hm_get client_id (sessions m)).

(** disconnect (messaging_service.rs:180-184) *)
Definition disconnect (m : MessagingService) (client_id : ClientId)
  : MessagingService * option Session :=
  ({| sessions := hm_remove client_id (sessions m);
      subscriptions := disconnected (subscriptions m) client_id |},
   hm_get client_id (sessions m)).

(** senders_to_publish (messaging_service.rs:217-237): subscribers without a session are skipped *)
Definition senders_to_publish (m : MessagingService) (t : bytes) : list conn :=
  match subscribed_clients (subscriptions m) t with
  | Some client_ids =>
    flat_map (fun c => match hm_get c (sessions m) with
                       | Some s => [s_sender s]
                       | None => []
                       end) client_ids
  | None => []
  end.

(** MessagingOperation (messaging_service.rs:22-70); the index is the type sent to [resp]. *)
Inductive MessagingOperation : Type -> Type :=
| SessionExists (client_id : ClientId) : MessagingOperation bool
| SessionInsert (session : Session) : MessagingOperation unit
| SessionGet (client_id : ClientId) : MessagingOperation (option Session)
| SessionGetExpiredKeepAlive : MessagingOperation (list Session)
| SessionCount : MessagingOperation nat
| ConnectionLostOp (client_id : ClientId) : MessagingOperation (option Session)
| ConnectionDisconnected (client_id : ClientId) : MessagingOperation (option Session)
| SubscribeOp (client_id : ClientId) (subscription : Subscription) : MessagingOperation SubAckReturnCode
| UnsubscribeOp (client_id : ClientId) (topics : list bytes) : MessagingOperation unit
| PublishOp (m : Message) (publish : PublishPacket) : MessagingOperation unit
| SendersToPublish (t : bytes) : MessagingOperation (list conn).

(** The loop body of MessagingService::run (messaging_service.rs:88-134). Note: SessionGet always
    answers None (line 99), SessionGetExpiredKeepAlive the empty list (line 103), and the future
    made by [self.publish(..)] on line 126 is dropped without being awaited, so nothing happens. *)
Definition serve {R} (m : MessagingService) (op : MessagingOperation R) : MessagingService * R :=
  match op in MessagingOperation R return MessagingService * R with
  | SessionExists c => (m, session_exists m c)
  | SessionInsert s => (session_insert m s, tt)
  | SessionGet _ => (m, None)
  | SessionGetExpiredKeepAlive => (m, [])
  | SessionCount => (m, session_count m)
  | ConnectionLostOp c => connection_lost m c
  | ConnectionDisconnected c => disconnect m c
  | SubscribeOp c s =>
    let (subs, code) := subscribe (subscriptions m) c s in
    ({| sessions := sessions m; subscriptions := subs |}, code)
  | UnsubscribeOp c ts =>
    ({| sessions := sessions m; subscriptions := unsubscribe (subscriptions m) c ts |}, tt)
  | PublishOp _ _ => (m, tt)
  | SendersToPublish t => (m, senders_to_publish m t)
  end.

(** Public methods of the sessions and of the messaging service that the running broker never calls:
    src/broker/session/session_repository.rs (get_mut, iter), src/broker/session/session_service.rs,
    src/broker/session/session_entity.rs (set_last_activity), and session_get, session_get_mut,
    session_get_keep_alive_expired and publish of src/broker/messaging/messaging_service.rs. *)
From Verif Require Import Base Packets HashMap Subscriptions Messaging Handler KeepAlive.

(** trait SessionRepository (session_repository.rs:6-15). [r_change c f] is [get_mut(c)] with the change [f] made through
    the reference it returns. *)
Record SessionRepository (T : Type) := {
  r_insert : T -> Session -> T;
  r_exists : T -> ClientId -> bool;
  r_get : T -> ClientId -> option Session;
  r_change : T -> ClientId -> (Session -> Session) -> T;
  r_delete : T -> ClientId -> T * option Session;
  r_count : T -> nat;
  r_iter : T -> list (ClientId * Session) }.
Arguments r_insert {T}.
Arguments r_exists {T}.
Arguments r_get {T}.
Arguments r_change {T}.
Arguments r_delete {T}.
Arguments r_count {T}.
Arguments r_iter {T}.

(** HashMap::get_mut, the value changed through the reference *)
Fixpoint hm_change {V} (k : bytes) (f : V -> V) (m : hmap V) : hmap V :=
  match m with
  | [] => []
  | (k', v) :: m' => if bytes_eqb k k' then (k', f v) :: m' else (k', v) :: hm_change k f m'
  end.

(** impl SessionRepository for InMemorySessionRepository (session_repository.rs:27-55); the struct (17-19) is its map,
    [new] (21-25) the identity *)
Definition in_memory : SessionRepository (hmap Session) :=
  {| r_insert := fun m s => hm_insert (s_client_id s) s m;
     r_exists := fun m c => hm_mem c m;
     r_get := fun m c => hm_get c m;
     r_change := fun m c f => hm_change c f m;
     r_delete := fun m c => (hm_remove c m, hm_get c m);
     r_count := fun m => hm_len m;
     r_iter := fun m => hm_iter m |}.

(** SessionService (session_service.rs:6-11), over any repository *)
Record SessionService (T : Type) := { repository : T }.
Arguments repository {T}.

(** session_service.rs:17-19 *)
Definition SessionService_new {T} (repository : T) : SessionService T := {| repository := repository |}.

(** session_service.rs:21-39 *)
Definition service_exists {T} (R : SessionRepository T) (x : SessionService T) (c : ClientId) : bool :=
  r_exists R (repository x) c.
Definition service_insert {T} (R : SessionRepository T) (x : SessionService T) (s : Session) : SessionService T :=
  {| repository := r_insert R (repository x) s |}.
Definition service_get {T} (R : SessionRepository T) (x : SessionService T) (c : ClientId) : option Session :=
  r_get R (repository x) c.
Definition service_delete {T} (R : SessionRepository T) (x : SessionService T) (c : ClientId)
  : SessionService T * option Session :=
  ({| repository := fst (r_delete R (repository x) c) |}, snd (r_delete R (repository x) c)).
Definition service_count {T} (R : SessionRepository T) (x : SessionService T) : nat :=
  r_count R (repository x).

(** session_entity.rs:44-46 *)
Definition set_last_activity (t : Z) (s : Session) : Session :=
  {| s_client_id := s_client_id s; s_ip := s_ip s; s_persistent := s_persistent s; s_sender := s_sender s;
     s_keep_alive_seconds := s_keep_alive_seconds s; s_last_activity := t |}.

(** session_get (messaging_service.rs:148-150) *)
Definition session_get (m : MessagingService) (client_id : ClientId) : option Session :=
  r_get in_memory (sessions m) client_id.

(** session_get_mut (messaging_service.rs:152-154) and a change through the reference *)
Definition session_change (m : MessagingService) (client_id : ClientId) (f : Session -> Session) : MessagingService :=
  {| sessions := r_change in_memory (sessions m) client_id f; subscriptions := subscriptions m |}.

(** The [filter_map] of session_get_keep_alive_expired (messaging_service.rs:159-167); [None] is a panic of
    [is_keep_alive_expired]. *)
Fixpoint keep_expired (last now : Z) (l : list (ClientId * Session)) : option (list Session) :=
  match l with
  | [] => Some []
  | (_, s) :: rest =>
    match is_keep_alive_expired last s now with
    | None => None
    | Some b =>
      match keep_expired last now rest with
      | None => None
      | Some found => Some (if b then s :: found else found)
      end
    end
  end.

(** session_get_keep_alive_expired (messaging_service.rs:156-168); [now] is [Utc::now()], line 157 *)
Definition session_get_keep_alive_expired (last now : Z) (m : MessagingService) : option (list Session) :=
  keep_expired last now (r_iter in_memory (sessions m)).

(** The loop of publish (messaging_service.rs:200-213): like the handler's programs, it sends and waits for room. *)
Fixpoint publish_loop (ss : hmap Session) (client_ids : list ClientId) (publish : PublishPacket) : prog :=
  match client_ids with
  | [] => Done
  | c :: rest =>
    match r_get in_memory ss c with
    | Some session => Send (s_sender session) (ServerPacket (Publish publish)) (publish_loop ss rest publish)
    | None => publish_loop ss rest publish
    end
  end.

(** publish (messaging_service.rs:198-215), when it is awaited; [run] does not await it (line 126), which is why
    [PublishOp] does nothing in [serve] *)
Definition publish_awaited (m : MessagingService) (message : Message) (publish : PublishPacket) : prog :=
  match subscribed_clients (subscriptions m) (topic message) with
  | Some client_ids => publish_loop (sessions m) client_ids publish
  | None => Done
  end.

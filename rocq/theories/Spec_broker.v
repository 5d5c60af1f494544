(** Specification of the broker at the level of client events: who is connected, which connection
    owns a client id, and which subscription requests an event amounts to. Only the event types are
    shared with the model. *)
From Verif Require Import Base Base_facts Packets Messaging Handler Spec_subs Spec_wire.

(** A history: times and events, oldest first. *)
Definition history : Type := list (Z * ClientEvent).

(** The credentials of a CONNECT are acceptable: none given, or a user name and a password that
    the identity provider accepts. *)
Definition accepts (auth : bytes -> bytes -> bool) (c : ConnectPacket) : Prop :=
  match user_name c, password c with
  | None, _ => True
  | Some u, Some p => auth u p = true
  | Some _, None => False
  end.

(** An event by which [cid] is accepted on connection [k]. *)
Definition accepted_on (auth : bytes -> bytes -> bool) (cid : ClientId) (k : conn) (te : Z * ClientEvent) : Prop :=
  exists c a, snd te = Connected c a k /\ client_id c = cid /\ accepts auth c.

(** An event that ends the session of [cid]. *)
Definition ends (cid : ClientId) (te : Z * ClientEvent) : Prop :=
  (exists k, snd te = ClientPacket cid Disconnect k) \/ snd te = ConnectionLost cid.

(** The last accepted CONNECT of [cid] came after its last DISCONNECT. *)
Definition connected (auth : bytes -> bytes -> bool) (h : history) (cid : ClientId) : Prop :=
  exists before te after k, h = before ++ te :: after /\ accepted_on auth cid k te
    /\ forall x, In x after -> ~ ends cid x.

(** [k] is the connection of the most recent accepted CONNECT of the connected client [cid]. *)
Definition owns (auth : bytes -> bytes -> bool) (h : history) (k : conn) (cid : ClientId) : Prop :=
  exists before te after, h = before ++ te :: after /\ accepted_on auth cid k te
    /\ (forall x, In x after -> ~ ends cid x)
    /\ (forall x k', In x after -> ~ accepted_on auth cid k' x).

(** The subscription requests an event amounts to. *)
Definition requests_of (te : Z * ClientEvent) : list request :=
  match snd te with
  | ClientPacket cid (Subscribe _ subs) _ => map (fun s => ReqSubscribe cid (sub_topic s)) subs
  | ClientPacket cid (Unsubscribe _ fs) _ => [ReqUnsubscribe cid fs]
  | ClientPacket cid Disconnect _ => [ReqDisconnect cid]
  | ConnectionLost cid => [ReqDisconnect cid]
  | _ => []
  end.

Definition requests (h : history) : list request := flat_map requests_of h.

(** The one way an event by itself makes the handler panic. *)
Definition user_without_password (te : Z * ClientEvent) : Prop :=
  exists c a k u, snd te = Connected c a k /\ user_name c = Some u /\ password c = None.

(** Packets that the reader can deliver (see [conforms]). *)
Definition receivable (p : ControlPacket) : Prop :=
  exists b h n body, varint h n /\ (length h <= 3)%nat /\ conforms b n body p.

Definition event_receivable (te : Z * ClientEvent) : Prop :=
  match snd te with
  | Connected c _ _ => True
  | ClientPacket _ p _ => receivable p
  | Disconnected _ | ConnectionLost _ => True
  end.

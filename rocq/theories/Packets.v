(** Packet types: src/mqtt/packets/*.rs, src/mqtt/message.rs, src/mqtt/subscription.rs,
    src/mqtt/events.rs. *)
From Verif Require Import Base.
Open Scope N_scope.

(** src/mqtt/packets/mod.rs:38-51 *)
Definition PACKET_TYPE_CONNECT : N := 1.
Definition PACKET_TYPE_CONN_ACK : N := 2.
Definition PACKET_TYPE_PUBLISH : N := 3.
Definition PACKET_TYPE_PUB_ACK : N := 4.
Definition PACKET_TYPE_PUB_REC : N := 5.
Definition PACKET_TYPE_PUB_REL : N := 6.
Definition PACKET_TYPE_PUB_COMP : N := 7.
Definition PACKET_TYPE_SUBSCRIBE : N := 8.
Definition PACKET_TYPE_SUB_ACK : N := 9.
Definition PACKET_TYPE_UNSUBSCRIBE : N := 10.
Definition PACKET_TYPE_UNSUB_ACK : N := 11.
Definition PACKET_TYPE_PING_REQ : N := 12.
Definition PACKET_TYPE_PING_RESP : N := 13.
Definition PACKET_TYPE_DISCONNECT : N := 14.

(** src/mqtt/packets/mod.rs:54 *)
Definition ClientId : Type := bytes.

(** src/mqtt/packets/mod.rs:56-60 *)
Inductive ProtocolVersion := Mqtt3 | Mqtt5.

(** src/mqtt/packets/mod.rs:68-73 *)
Inductive QoS := AtMostOnce | AtLeastOnce | ExactlyOnce.

(** [qos as u8]: the discriminants of mod.rs:70-72 *)
Definition qos_bits (q : QoS) : N :=
  match q with AtMostOnce => 0 | AtLeastOnce => 1 | ExactlyOnce => 2 end.

(** src/mqtt/packets/mod.rs:86-93; [Boom] is the panic of line 91 *)
Definition QoS_from_bits (bits : N) : rd QoS :=
  if bits =? 0 then Ret AtMostOnce
  else if bits =? 1 then Ret AtLeastOnce
  else if bits =? 2 then Ret ExactlyOnce
  else Boom.

(** [qos > QoS::AtMostOnce], derived PartialOrd (mod.rs:68) *)
Definition qos_gt0 (q : QoS) : bool :=
  match q with AtMostOnce => false | _ => true end.

(** src/mqtt/message.rs:5-10 *)
Record Message := { topic : bytes; payload : bytes; qos : QoS; retain : bool }.

(** src/mqtt/packets/connect.rs:6-16 *)
Record ConnectPacket := {
  version : ProtocolVersion;
  client_id : ClientId;
  keep_alive_seconds : N;
  clean_session : bool;
  will_message : option Message;
  user_name : option bytes;
  password : option bytes }.

(** src/mqtt/packets/connack.rs:2-9 *)
Inductive ConnAckReturnCode :=
| Accepted | UnacceptableProtocolVersion | IdentifierRejected
| ServerUnavailable | BadUserNameOrPassword | NotAuthorized.

(** [return_code as u8]: discriminants start at 0 (connack.rs:3) *)
Definition connack_code (c : ConnAckReturnCode) : N :=
  match c with
  | Accepted => 0 | UnacceptableProtocolVersion => 1 | IdentifierRejected => 2
  | ServerUnavailable => 3 | BadUserNameOrPassword => 4 | NotAuthorized => 5
  end.

(** src/mqtt/packets/connack.rs:18-21 *)
Record ConnAckPacket := { session_present : bool; return_code : ConnAckReturnCode }.

(** src/mqtt/packets/publish.rs:6-11 *)
Record PublishPacket := { pub_packet_id : option N; dup : bool; message : Message }.

(** src/mqtt/packets/suback.rs:4-9 *)
Inductive SubAckReturnCode := SuccessQoS0 | SuccessQoS1 | SuccessQoS2 | Failure.

(** [return_code as u8] (suback.rs:5-8) *)
Definition suback_code (c : SubAckReturnCode) : N :=
  match c with SuccessQoS0 => 0 | SuccessQoS1 => 1 | SuccessQoS2 => 2 | Failure => 0x80 end.

(** src/mqtt/subscription.rs:6-9 *)
Record Subscription := { sub_topic : bytes; sub_qos : QoS }.

(** src/mqtt/packets/mod.rs:103-118; the packets that carry only a packet id
    (puback.rs, pubrec.rs, pubrel.rs, pubcomp.rs, unsuback.rs) and the pairs of
    suback.rs, subscribe.rs, unsubscribe.rs are inlined as constructor arguments;
    DisconnectPacket (disconnect.rs:7) has no field. *)
Inductive ControlPacket :=
| Connect (c : ConnectPacket)
| ConnAck (c : ConnAckPacket)
| Publish (p : PublishPacket)
| PubAck (packet_id : N)
| PubRec (packet_id : N)
| PubRel (packet_id : N)
| PubComp (packet_id : N)
| Subscribe (packet_id : N) (subscriptions : list Subscription)
| SubAck (packet_id : N) (return_codes : list SubAckReturnCode)
| Unsubscribe (packet_id : N) (topics : list bytes)
| UnsubAck (packet_id : N)
| PingReq
| PingResp
| Disconnect.

(** src/mqtt/packets/publish.rs:14-32 (argument order as in the source) *)
Definition PublishPacket_new (t body : bytes) (q : QoS) (ret : bool)
    (pid : option N) (d : bool) : PublishPacket :=
  {| pub_packet_id := pid; dup := d;
     message := {| topic := t; payload := body; qos := q; retain := ret |} |}.

(** src/mqtt/packets/connect.rs:19-37 *)
Definition ConnectPacket_new (v : ProtocolVersion) (cid : ClientId) (ka : N) (clean : bool)
    (will : option Message) (user pass : option bytes) : ConnectPacket :=
  {| version := v; client_id := cid; keep_alive_seconds := ka; clean_session := clean;
     will_message := will; user_name := user; password := pass |}.

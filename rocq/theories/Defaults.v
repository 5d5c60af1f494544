(** The [Default] impls of the packets and [ControlPacket::new], which nothing in the project calls:
    src/mqtt/packets/mod.rs:62-66, 96-100, 141-160, the derived ones in src/mqtt/packets/*.rs and src/mqtt/message.rs,
    connack.rs:11-15, suback.rs:11-15.  The Default of a number is 0, of a string, a list or a BytesMut empty, of a bool false, of an Option None. *)
From Verif Require Import Base Packets.
Open Scope N_scope.

Definition ProtocolVersion_default : ProtocolVersion := Mqtt3.
Definition QoS_default : QoS := AtMostOnce.
Definition ConnAckReturnCode_default : ConnAckReturnCode := Accepted.
Definition SubAckReturnCode_default : SubAckReturnCode := Failure.

(** message.rs:4 *)
Definition Message_default : Message := {| topic := []; payload := []; qos := QoS_default; retain := false |}.

(** connect.rs:5 *)
Definition ConnectPacket_default : ConnectPacket :=
  {| version := ProtocolVersion_default; client_id := []; keep_alive_seconds := 0; clean_session := false;
     will_message := None; user_name := None; password := None |}.

(** connack.rs:17 *)
Definition ConnAckPacket_default : ConnAckPacket := {| session_present := false; return_code := ConnAckReturnCode_default |}.

(** publish.rs:5 *)
Definition PublishPacket_default : PublishPacket := {| pub_packet_id := None; dup := false; message := Message_default |}.

(** mod.rs:141-160; None is the panic of line 157. *)
Definition ControlPacket_new (packet_id : N) : option ControlPacket :=
  if packet_id =? PACKET_TYPE_CONNECT then Some (Connect ConnectPacket_default)
  else if packet_id =? PACKET_TYPE_CONN_ACK then Some (ConnAck ConnAckPacket_default)
  else if packet_id =? PACKET_TYPE_PUBLISH then Some (Publish PublishPacket_default)
  else if packet_id =? PACKET_TYPE_PUB_ACK then Some (PubAck 0)
  else if packet_id =? PACKET_TYPE_PUB_REC then Some (PubRec 0)
  else if packet_id =? PACKET_TYPE_PUB_REL then Some (PubRel 0)
  else if packet_id =? PACKET_TYPE_PUB_COMP then Some (PubComp 0)
  else if packet_id =? PACKET_TYPE_SUBSCRIBE then Some (Subscribe 0 [])
  else if packet_id =? PACKET_TYPE_SUB_ACK then Some (SubAck 0 [])
  else if packet_id =? PACKET_TYPE_UNSUBSCRIBE then Some (Unsubscribe 0 [])
  else if packet_id =? PACKET_TYPE_UNSUB_ACK then Some (UnsubAck 0)
  else if packet_id =? PACKET_TYPE_PING_REQ then Some PingReq
  else if packet_id =? PACKET_TYPE_PING_RESP then Some PingResp
  else if packet_id =? PACKET_TYPE_DISCONNECT then Some Disconnect
  else None.

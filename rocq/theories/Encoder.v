(** src/mqtt/transport/packet_encoder.rs.

    A writer is the list of calls it makes on [MqttBytesWriteStream]
    (put_u8, put_u16, put_bytes: mqtt_bytes_stream.rs:276-316). *)
From Verif Require Import Base Packets.
Open Scope N_scope.

Inductive put :=
| PutU8 (n : N)
| PutU16 (n : N)
| PutBytes (bs : bytes).

(** encode_remaining_length (packet_encoder.rs:29-48). [fuel] bounds the iterations:
    ten base-128 digits are enough for a u64. *)
Fixpoint encode_remaining_length_loop (fuel : nat) (remaining_length : N) : list put :=
  match fuel with
  | O => []
  | S fuel' =>
    let encoded_byte := remaining_length mod 128 in
    let remaining_length := remaining_length / 128 in
    let encoded_byte := if 0 <? remaining_length then N.lor encoded_byte 128 else encoded_byte in
    PutU8 encoded_byte ::
    (if remaining_length =? 0 then [] else encode_remaining_length_loop fuel' remaining_length)
  end.

Definition encode_remaining_length (remaining_length : N) : list put :=
  encode_remaining_length_loop 10 remaining_length.

(** put_string (mqtt_bytes_stream.rs:290-295): the length is cast [as u16] *)
Definition put_string (s : bytes) : list put :=
  [PutU16 (lenN s mod 2 ^ 16); PutBytes s].

Definition bool_n (b : bool) : N := if b then 1 else 0.

(** packet_encoder.rs:72-87 *)
Definition write_conn_ack (p : ConnAckPacket) : list put :=
  [PutU8 (N.shiftl PACKET_TYPE_CONN_ACK 4)]
  ++ encode_remaining_length 2
  ++ [PutU8 (bool_n (session_present p)); PutU8 (connack_code (return_code p))].

(** packet_encoder.rs:104-111 *)
Definition publish_first_byte (p : PublishPacket) : N :=
  let first_byte := N.shiftl PACKET_TYPE_PUBLISH 4 in
  let first_byte := if dup p then N.lor first_byte 8 else first_byte in
  let first_byte := N.lor first_byte (N.shiftl (qos_bits (qos (message p))) 1) in
  if retain (message p) then N.lor first_byte 1 else first_byte.

(** packet_encoder.rs:115-121 (the sums cannot reach 2^64: lengths are below 2^63) *)
Definition publish_remaining_length (p : PublishPacket) : N :=
  let remaining_length := lenN (topic (message p)) + 2 in
  let remaining_length :=
    if qos_gt0 (qos (message p)) then remaining_length + 2 else remaining_length in
  remaining_length + lenN (payload (message p)).

(** packet_encoder.rs:89-137 *)
Definition write_publish (p : PublishPacket) : list put :=
  [PutU8 (publish_first_byte p)]
  ++ encode_remaining_length (publish_remaining_length p)
  ++ put_string (topic (message p))
  ++ (match pub_packet_id p with Some i => [PutU16 i] | None => [] end)
  ++ [PutBytes (payload (message p))].

(** packet_encoder.rs:217-232 *)
Definition write_packet_with_packet_id (first_byte packet_id : N) : list put :=
  [PutU8 first_byte] ++ encode_remaining_length 2 ++ [PutU16 packet_id].

(** packet_encoder.rs:139-145 *)
Definition write_pub_ack (i : N) : list put :=
  write_packet_with_packet_id (N.shiftl PACKET_TYPE_PUB_ACK 4) i.

(** packet_encoder.rs:147-153 *)
Definition write_pub_rec (i : N) : list put :=
  write_packet_with_packet_id (N.shiftl PACKET_TYPE_PUB_REC 4) i.

(** packet_encoder.rs:155-163 *)
Definition write_pub_rel (i : N) : list put :=
  write_packet_with_packet_id (N.lor (N.shiftl PACKET_TYPE_PUB_REL 4) 2) i.

(** packet_encoder.rs:165-171 *)
Definition write_pub_comp (i : N) : list put :=
  write_packet_with_packet_id (N.shiftl PACKET_TYPE_PUB_COMP 4) i.

(** packet_encoder.rs:173-195 *)
Definition write_sub_ack (i : N) (codes : list SubAckReturnCode) : list put :=
  [PutU8 (N.shiftl PACKET_TYPE_SUB_ACK 4)]
  ++ encode_remaining_length (2 + lenN codes)
  ++ [PutU16 i]
  ++ map (fun c => PutU8 (suback_code c)) codes.

(** packet_encoder.rs:197-205 *)
Definition write_unsub_ack (i : N) : list put :=
  write_packet_with_packet_id (N.shiftl PACKET_TYPE_UNSUB_ACK 4) i.

(** packet_encoder.rs:207-215 *)
Definition write_ping_resp : list put :=
  [PutU8 (N.shiftl PACKET_TYPE_PING_RESP 4)] ++ encode_remaining_length 0.

(** The match of write_packet (packet_encoder.rs:54-65); [None] is [unimplemented!()].
    The final finish_packet (line 67) is in [WriteStream.v]. *)
Definition packet_puts (p : ControlPacket) : option (list put) :=
  match p with
  | ConnAck c => Some (write_conn_ack c)
  | Publish p => Some (write_publish p)
  | PubAck i => Some (write_pub_ack i)
  | PubRec i => Some (write_pub_rec i)
  | PubRel i => Some (write_pub_rel i)
  | PubComp i => Some (write_pub_comp i)
  | SubAck i codes => Some (write_sub_ack i codes)
  | UnsubAck i => Some (write_unsub_ack i)
  | PingResp => Some write_ping_resp
  | Connect _ | Subscribe _ _ | Unsubscribe _ _ | PingReq | Disconnect => None
  end.

(** The bytes a call appends: [n as u8] / big-endian u16 / the slice itself. *)
Definition put_bytes_of (c : put) : bytes :=
  match c with
  | PutU8 n => [n2b n]
  | PutU16 n => [n2b (n / 256); n2b n]
  | PutBytes bs => bs
  end.

(** The bytes of a packet: what the calls append, in order. *)
Definition encode (p : ControlPacket) : option bytes :=
  option_map (flat_map put_bytes_of) (packet_puts p).

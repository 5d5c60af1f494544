(** src/mqtt/transport/packet_decoder.rs, and get_string of mqtt_bytes_stream.rs.

    [dbg] selects the arithmetic of the build: with debug assertions an unsigned
    subtraction that underflows panics, without them it wraps modulo 2^64. *)
From Verif Require Import Base Utf8 Packets.
Open Scope N_scope.

(** [a -= b] on u64 *)
Definition sub64 (dbg : bool) (a b : N) : rd N :=
  if b <=? a then Ret (a - b)
  else if dbg then Boom
  else Ret (a + 2 ^ 64 - b).

(** mqtt_bytes_stream.rs:198-216 (and 50-68): the size is a u16; from_utf8 failure becomes
    InvalidData with position valid_up_to()+1 *)
Definition get_string : rd bytes :=
  string_size <- get_u16 ;;
  str_buf <- get_bytes string_size ;;
  match from_utf8 str_buf with
  | None => Ret str_buf
  | Some valid_up_to => Err (ErrUtf8 (valid_up_to + 1))
  end.

(** packet_decoder.rs:45-68. [fuel] bounds the iterations of the loop; 4 suffice. *)
Fixpoint decode_remaining_length_loop (fuel : nat) (remaining_length multiplier : N) : rd N :=
  match fuel with
  | O => NoFuel
  | S fuel' =>
    byte <- get_u8 ;;
    let remaining_length := remaining_length + N.land (b2n byte) 127 * multiplier in
    let multiplier := multiplier * 128 in
    if 128 * 128 * 128 <? multiplier then Err ErrLength
    else
      let continuation_bit := N.land (b2n byte) 128 in
      if continuation_bit =? 0 then Ret remaining_length
      else decode_remaining_length_loop fuel' remaining_length multiplier
  end.

Definition decode_remaining_length : rd N := decode_remaining_length_loop 4 0 1.

(** packet_decoder.rs:308-317 *)
Definition validate_first_byte (actual expected : N) : rd unit :=
  if actual =? expected then Ret tt else Err ErrHeader.

(** packet_decoder.rs:297-306 *)
Definition decode_packet_with_packet_id (first_byte expected_first_byte : N) : rd N :=
  _ <- validate_first_byte first_byte expected_first_byte ;;
  get_u16.

(** bitflags [contains]: all bits of the flag are set *)
Definition flag_set (bits flag : N) : bool := N.land bits flag =? flag.

(** packet_decoder.rs:96-152 *)
Definition decode_connect (first_byte remaining_length : N) : rd ControlPacket :=
  _protocol_name <- get_string ;;
  _protocol_level <- get_u8 ;;
  connect_flags_byte <- get_u8 ;;
  let connect_flags := b2n connect_flags_byte in
  let clean := flag_set connect_flags 2 in
  keep_alive <- get_u16 ;;
  cid <- get_string ;;
  user <- (if flag_set connect_flags 128
           then s <- get_string ;; Ret (Some s) else Ret None) ;;
  pass <- (if flag_set connect_flags 64
           then s <- get_string ;; Ret (Some s) else Ret None) ;;
  Ret (Connect (ConnectPacket_new Mqtt3 cid keep_alive clean None user pass)).

(** packet_decoder.rs:154-193 *)
Definition decode_publish (dbg : bool) (first_byte remaining_length : N) : rd ControlPacket :=
  let d := flag_set first_byte 8 in
  let ret := flag_set first_byte 1 in
  q <- QoS_from_bits (N.shiftr (N.land first_byte 6) 1) ;;
  t <- get_string ;;
  remaining_length <- sub64 dbg remaining_length (lenN t) ;;
  remaining_length <- sub64 dbg remaining_length 2 ;;
  x <- (if qos_gt0 q then
          remaining_length <- sub64 dbg remaining_length 2 ;;
          i <- get_u16 ;;
          Ret (remaining_length, Some i)
        else Ret (remaining_length, None)) ;;
  let '(remaining_length, pid) := x in
  body <- get_bytes remaining_length ;;
  Ret (Publish (PublishPacket_new t body q ret pid d)).

(** packet_decoder.rs:195-202 *)
Definition decode_pub_ack (first_byte remaining_length : N) : rd ControlPacket :=
  i <- decode_packet_with_packet_id first_byte 0x40 ;; Ret (PubAck i).

(** packet_decoder.rs:204-211 *)
Definition decode_pub_rec (first_byte remaining_length : N) : rd ControlPacket :=
  i <- decode_packet_with_packet_id first_byte 0x50 ;; Ret (PubRec i).

(** packet_decoder.rs:213-220 *)
Definition decode_pub_rel (first_byte remaining_length : N) : rd ControlPacket :=
  i <- decode_packet_with_packet_id first_byte 0x62 ;; Ret (PubRel i).

(** packet_decoder.rs:222-229 *)
Definition decode_pub_comp (first_byte remaining_length : N) : rd ControlPacket :=
  i <- decode_packet_with_packet_id first_byte 0x70 ;; Ret (PubComp i).

(** packet_decoder.rs:248-263: [acc] is the vector built so far *)
Fixpoint decode_subscribe_loop (fuel : nat) (dbg : bool) (remaining_length : N)
    (acc : list Subscription) : rd (list Subscription) :=
  match fuel with
  | O => NoFuel
  | S fuel' =>
    if 0 <? remaining_length then
      t <- get_string ;;
      q <- get_u8 ;;
      if 2 <? b2n q then Err ErrQoS
      else
        remaining_length <- sub64 dbg remaining_length (lenN t + 3) ;;
        q <- QoS_from_bits (b2n q) ;;
        decode_subscribe_loop fuel' dbg remaining_length
          (acc ++ [{| sub_topic := t; sub_qos := q |}])
    else Ret acc
  end.

(** packet_decoder.rs:231-267 *)
Definition decode_subscribe (fuel : nat) (dbg : bool) (first_byte remaining_length : N)
    : rd ControlPacket :=
  i <- decode_packet_with_packet_id first_byte 0x82 ;;
  remaining_length <- sub64 dbg remaining_length 2 ;;
  if remaining_length =? 0 then Err ErrPayload
  else
    subs <- decode_subscribe_loop fuel dbg remaining_length [] ;;
    Ret (Subscribe i subs).

(** packet_decoder.rs:284-291 *)
Fixpoint decode_unsubscribe_loop (fuel : nat) (dbg : bool) (remaining_length : N)
    (acc : list bytes) : rd (list bytes) :=
  match fuel with
  | O => NoFuel
  | S fuel' =>
    if 0 <? remaining_length then
      t <- get_string ;;
      remaining_length <- sub64 dbg remaining_length (lenN t + 2) ;;
      decode_unsubscribe_loop fuel' dbg remaining_length (acc ++ [t])
    else Ret acc
  end.

(** packet_decoder.rs:269-295 *)
Definition decode_unsubscribe (fuel : nat) (dbg : bool) (first_byte remaining_length : N)
    : rd ControlPacket :=
  i <- decode_packet_with_packet_id first_byte 0xA2 ;;
  remaining_length <- sub64 dbg remaining_length 2 ;;
  if remaining_length =? 0 then Err ErrPayload
  else
    ts <- decode_unsubscribe_loop fuel dbg remaining_length [] ;;
    Ret (Unsubscribe i ts).

(** packet_decoder.rs:70-94; [Boom] in the last branch is [unimplemented!()], line 90.
    [fuel] bounds the iterations of the SUBSCRIBE and UNSUBSCRIBE payload loops. *)
Definition read_packet (fuel : nat) (dbg : bool) : rd ControlPacket :=
  first <- get_u8 ;;
  let first_byte := b2n first in
  let packet_type := N.shiftr first_byte 4 in
  remaining_length <- decode_remaining_length ;;
  if packet_type =? PACKET_TYPE_CONNECT then decode_connect first_byte remaining_length
  else if packet_type =? PACKET_TYPE_PUBLISH then decode_publish dbg first_byte remaining_length
  else if packet_type =? PACKET_TYPE_PUB_ACK then decode_pub_ack first_byte remaining_length
  else if packet_type =? PACKET_TYPE_PUB_REC then decode_pub_rec first_byte remaining_length
  else if packet_type =? PACKET_TYPE_PUB_REL then decode_pub_rel first_byte remaining_length
  else if packet_type =? PACKET_TYPE_PUB_COMP then decode_pub_comp first_byte remaining_length
  else if packet_type =? PACKET_TYPE_SUBSCRIBE then
    decode_subscribe fuel dbg first_byte remaining_length
  else if packet_type =? PACKET_TYPE_UNSUBSCRIBE then
    decode_unsubscribe fuel dbg first_byte remaining_length
  else if packet_type =? PACKET_TYPE_PING_REQ then Ret PingReq
  else if packet_type =? PACKET_TYPE_DISCONNECT then Ret Disconnect
  else Boom.

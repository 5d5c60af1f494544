(** The three trace records of get_string (src/mqtt/transport/mqtt_bytes_stream.rs:199-202) and when they are made.

    The decoder of Decoder.v again, over the same operations and one more, [Say], which makes a record. Parts without
    strings are taken over from Decoder.v ([quietly]). Prop_traces.v proves that leaving the records out gives Decoder.v.
    In System.v a read is one step, taken when the packet is complete or fails; a read that is waiting has
    made the records before the place where it waits, which [run_t] gives together with [RWait]. *)
From Verif Require Import Base Utf8 Packets Decoder ReadStream Plain Conn Logging.
Open Scope N_scope.

(** A reader program with records. *)
Inductive rt (A : Type) : Type :=
| TRet (a : A)
| TErr (e : err)
| TBoom
| TNoFuel
| TGetU8 (k : byte -> rt A)
| TGetU16 (k : N -> rt A)
| TGetBytes (size : N) (k : bytes -> rt A)
| Say (e : entry) (k : rt A).
Arguments TRet {A} a.
Arguments TErr {A} e.
Arguments TBoom {A}.
Arguments TNoFuel {A}.
Arguments TGetU8 {A} k.
Arguments TGetU16 {A} k.
Arguments TGetBytes {A} size k.
Arguments Say {A} e k.

Fixpoint tbind {A B} (m : rt A) (f : A -> rt B) : rt B :=
  match m with
  | TRet a => f a
  | TErr e => TErr e
  | TBoom => TBoom
  | TNoFuel => TNoFuel
  | TGetU8 k => TGetU8 (fun b => tbind (k b) f)
  | TGetU16 k => TGetU16 (fun n => tbind (k n) f)
  | TGetBytes size k => TGetBytes size (fun bs => tbind (k bs) f)
  | Say e k => Say e (tbind k f)
  end.

Notation "x <~ m ;; k" := (tbind m (fun x => k)) (at level 61, m at next level, right associativity).

(** A program that makes no records. *)
Fixpoint quietly {A} (m : rd A) : rt A :=
  match m with
  | Ret a => TRet a
  | Err e => TErr e
  | Boom => TBoom
  | NoFuel => TNoFuel
  | GetU8 k => TGetU8 (fun b => quietly (k b))
  | GetU16 k => TGetU16 (fun n => quietly (k n))
  | GetBytes size k => TGetBytes size (fun bs => quietly (k bs))
  end.

(** [{:#04x}] of a u16 (line 201): the prefix counts towards the width of four, so two digits at least. *)
Fixpoint hexadecimal (fuel : nat) (n : N) : bytes :=
  match fuel with
  | O => []
  | S fuel' => (if n <? 16 then [] else hexadecimal fuel' (n / 16)) ++ [hex_digit (n mod 16)]
  end.

Definition show_hex (n : N) : bytes :=
  str "0x" ++ (if n <? 16 then str "0" else []) ++ hexadecimal 4 n.

(** mqtt_bytes_stream.rs:198-216 *)
Definition get_string_t : rt bytes :=
  Say {| lvl := Trace; said := str "Parsing string size" |} (
  string_size <~ quietly get_u16 ;;
  Say {| lvl := Trace; said := str "String size: " ++ show_u16 string_size ++ str " (" ++ show_hex string_size ++ str ")" |} (
  Say {| lvl := Trace; said := str "Parsing string buf" |} (
  str_buf <~ quietly (get_bytes string_size) ;;
  match from_utf8 str_buf with
  | None => TRet str_buf
  | Some valid_up_to => TErr (ErrUtf8 (valid_up_to + 1))
  end))).

(** packet_decoder.rs:96-152 *)
Definition decode_connect_t (first_byte remaining_length : N) : rt ControlPacket :=
  _protocol_name <~ get_string_t ;;
  _protocol_level <~ quietly get_u8 ;;
  connect_flags_byte <~ quietly get_u8 ;;
  let connect_flags := b2n connect_flags_byte in
  let clean := flag_set connect_flags 2 in
  keep_alive <~ quietly get_u16 ;;
  cid <~ get_string_t ;;
  user <~ (if flag_set connect_flags 128
           then s <~ get_string_t ;; TRet (Some s) else TRet None) ;;
  pass <~ (if flag_set connect_flags 64
           then s <~ get_string_t ;; TRet (Some s) else TRet None) ;;
  TRet (Connect (ConnectPacket_new Mqtt3 cid keep_alive clean None user pass)).

(** packet_decoder.rs:154-193 *)
Definition decode_publish_t (dbg : bool) (first_byte remaining_length : N) : rt ControlPacket :=
  let d := flag_set first_byte 8 in
  let ret := flag_set first_byte 1 in
  q <~ quietly (QoS_from_bits (N.shiftr (N.land first_byte 6) 1)) ;;
  t <~ get_string_t ;;
  remaining_length <~ quietly (sub64 dbg remaining_length (lenN t)) ;;
  remaining_length <~ quietly (sub64 dbg remaining_length 2) ;;
  x <~ (if qos_gt0 q then
          remaining_length <~ quietly (sub64 dbg remaining_length 2) ;;
          i <~ quietly get_u16 ;;
          TRet (remaining_length, Some i)
        else TRet (remaining_length, None)) ;;
  let '(remaining_length, pid) := x in
  body <~ quietly (get_bytes remaining_length) ;;
  TRet (Publish (PublishPacket_new t body q ret pid d)).

(** packet_decoder.rs:248-263 *)
Fixpoint decode_subscribe_loop_t (fuel : nat) (dbg : bool) (remaining_length : N)
    (acc : list Subscription) : rt (list Subscription) :=
  match fuel with
  | O => TNoFuel
  | S fuel' =>
    if 0 <? remaining_length then
      t <~ get_string_t ;;
      q <~ quietly get_u8 ;;
      if 2 <? b2n q then TErr ErrQoS
      else
        remaining_length <~ quietly (sub64 dbg remaining_length (lenN t + 3)) ;;
        q <~ quietly (QoS_from_bits (b2n q)) ;;
        decode_subscribe_loop_t fuel' dbg remaining_length
          (acc ++ [{| sub_topic := t; sub_qos := q |}])
    else TRet acc
  end.

(** packet_decoder.rs:231-267 *)
Definition decode_subscribe_t (fuel : nat) (dbg : bool) (first_byte remaining_length : N) : rt ControlPacket :=
  i <~ quietly (decode_packet_with_packet_id first_byte 0x82) ;;
  remaining_length <~ quietly (sub64 dbg remaining_length 2) ;;
  if remaining_length =? 0 then TErr ErrPayload
  else
    subs <~ decode_subscribe_loop_t fuel dbg remaining_length [] ;;
    TRet (Subscribe i subs).

(** packet_decoder.rs:284-291 *)
Fixpoint decode_unsubscribe_loop_t (fuel : nat) (dbg : bool) (remaining_length : N)
    (acc : list bytes) : rt (list bytes) :=
  match fuel with
  | O => TNoFuel
  | S fuel' =>
    if 0 <? remaining_length then
      t <~ get_string_t ;;
      remaining_length <~ quietly (sub64 dbg remaining_length (lenN t + 2)) ;;
      decode_unsubscribe_loop_t fuel' dbg remaining_length (acc ++ [t])
    else TRet acc
  end.

(** packet_decoder.rs:269-295 *)
Definition decode_unsubscribe_t (fuel : nat) (dbg : bool) (first_byte remaining_length : N) : rt ControlPacket :=
  i <~ quietly (decode_packet_with_packet_id first_byte 0xA2) ;;
  remaining_length <~ quietly (sub64 dbg remaining_length 2) ;;
  if remaining_length =? 0 then TErr ErrPayload
  else
    ts <~ decode_unsubscribe_loop_t fuel dbg remaining_length [] ;;
    TRet (Unsubscribe i ts).

(** packet_decoder.rs:70-94 *)
Definition read_packet_t (fuel : nat) (dbg : bool) : rt ControlPacket :=
  first <~ quietly get_u8 ;;
  let first_byte := b2n first in
  let packet_type := N.shiftr first_byte 4 in
  remaining_length <~ quietly decode_remaining_length ;;
  if packet_type =? PACKET_TYPE_CONNECT then decode_connect_t first_byte remaining_length
  else if packet_type =? PACKET_TYPE_PUBLISH then decode_publish_t dbg first_byte remaining_length
  else if packet_type =? PACKET_TYPE_PUB_ACK then quietly (decode_pub_ack first_byte remaining_length)
  else if packet_type =? PACKET_TYPE_PUB_REC then quietly (decode_pub_rec first_byte remaining_length)
  else if packet_type =? PACKET_TYPE_PUB_REL then quietly (decode_pub_rel first_byte remaining_length)
  else if packet_type =? PACKET_TYPE_PUB_COMP then quietly (decode_pub_comp first_byte remaining_length)
  else if packet_type =? PACKET_TYPE_SUBSCRIBE then
    decode_subscribe_t fuel dbg first_byte remaining_length
  else if packet_type =? PACKET_TYPE_UNSUBSCRIBE then
    decode_unsubscribe_t fuel dbg first_byte remaining_length
  else if packet_type =? PACKET_TYPE_PING_REQ then TRet PingReq
  else if packet_type =? PACKET_TYPE_DISCONNECT then TRet Disconnect
  else TBoom.

(** Running a program on the stream: the records made, and the outcome. *)
Fixpoint run_t {A} (m : rt A) (st : rstream) : list entry * rout A :=
  match m with
  | TRet a => ([], ROk a st)
  | TErr e => ([], RErr e)
  | TBoom => ([], RPanic)
  | TNoFuel => ([], RNoFuel)
  | TGetU8 k =>
    match stream_get_u8 st with
    | ROk b st' => run_t (k b) st'
    | RErr e => ([], RErr e) | RPanic => ([], RPanic) | RWait => ([], RWait) | RHung => ([], RHung) | RNoFuel => ([], RNoFuel)
    end
  | TGetU16 k =>
    match stream_get_u16 st with
    | ROk n st' => run_t (k n) st'
    | RErr e => ([], RErr e) | RPanic => ([], RPanic) | RWait => ([], RWait) | RHung => ([], RHung) | RNoFuel => ([], RNoFuel)
    end
  | TGetBytes size k =>
    match stream_get_bytes size st with
    | ROk bs st' => run_t (k bs) st'
    | RErr e => ([], RErr e) | RPanic => ([], RPanic) | RWait => ([], RWait) | RHung => ([], RHung) | RNoFuel => ([], RNoFuel)
    end
  | Say e k => let '(es, r) := run_t k st in (e :: es, r)
  end.

(** read_packet on a stream, as in ReadStream.v *)
Definition stream_read_packet_t (dbg : bool) (st : rstream) : list entry * rout ControlPacket :=
  run_t (read_packet_t (S (length (pending st))) dbg) st.

(** The successive reads of a connection (listener.rs:96 and 121), as in Conn.v: the records of each packet read, and
    those of the last read, which did not come to an end or failed. *)
Fixpoint read_all_loop_t (fuel : nat) (dbg : bool) (st : rstream)
    : list (list entry * ControlPacket) * (list entry * rend) :=
  match fuel with
  | O => ([], ([], EndNoFuel))
  | S fuel' =>
    let '(es, r) := stream_read_packet_t dbg st in
    match r with
    | ROk p st' => let '(ps, e) := read_all_loop_t fuel' dbg st' in ((es, p) :: ps, e)
    | RErr e => ([], (es, EndErr e))
    | RPanic => ([], (es, EndPanic))
    | RWait => ([], (es, EndWait))
    | RHung => ([], (es, EndHung))
    | RNoFuel => ([], (es, EndNoFuel))
    end
  end.

Definition read_all_t (dbg : bool) (st : rstream) : list (list entry * ControlPacket) * (list entry * rend) :=
  read_all_loop_t (S (length (pending st))) dbg st.

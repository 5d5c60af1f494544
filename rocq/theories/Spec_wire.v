(** Specification: MQTT 3.1.1 packets as bytes, from the standard's tables. Independent of the
    decoder and encoder models; only the packet types of [Packets.v] are shared. *)
From Verif Require Import Base Packets Spec_utf8.
Open Scope N_scope.

(** ** Section 2.2.3: remaining length *)

(** [varint h v]: the bytes [h] denote [v]: base 128, least significant first, top bit = more. *)
Inductive varint : bytes -> N -> Prop :=
| varint_last b : b2n b < 128 -> varint [b] (b2n b)
| varint_more b h v : 128 <= b2n b -> varint h v -> varint (b :: h) (b2n b - 128 + 128 * v).

(** No redundant final zero digit. *)
Definition shortest (h : bytes) : Prop := length h = 1%nat \/ last h x00 <> x00.

(** ** Section 1.5: integers and strings *)

Definition be16 (n : N) : bytes := [n2b (n / 256); n2b n].

Definition field (s : bytes) : bytes := be16 (lenN s) ++ s.

Definition opt_field (o : option bytes) : bytes := match o with Some s => field s | None => [] end.

Definition fits16 (s : bytes) : Prop := lenN s < 65536.

(** A string field's content: UTF-8 text that fits its length prefix. *)
Definition text (s : bytes) : Prop := is_utf8 s /\ fits16 s.

Definition opt_text (o : option bytes) : Prop := match o with Some s => text s | None => True end.

(** ** Section 3: first bytes and bodies *)

Definition qos_num (q : QoS) : N :=
  match q with AtMostOnce => 0 | AtLeastOnce => 1 | ExactlyOnce => 2 end.

Definition bit (b : bool) (n : N) : N := if b then n else 0.

Definition is_some {A} (o : option A) : bool := match o with Some _ => true | None => false end.

(** CONNECT as a client may send it *)
Record wconnect := {
  wc_name : bytes;             (* "MQTT" in 3.1.1 *)
  wc_level : byte;             (* 4 in 3.1.1 *)
  wc_clean : bool;
  wc_keep : N;
  wc_id : bytes;
  wc_will : option Message;
  wc_user : option bytes;
  wc_pass : option bytes }.

Definition connect_flags (c : wconnect) : N :=
  bit (is_some (wc_user c)) 128 + bit (is_some (wc_pass c)) 64
  + match wc_will c with
    | Some w => bit (retain w) 32 + 8 * qos_num (qos w) + 4
    | None => 0
    end
  + bit (wc_clean c) 2.

Definition will_fields (o : option Message) : bytes :=
  match o with Some w => field (topic w) ++ field (payload w) | None => [] end.

Definition connect_body (c : wconnect) : bytes :=
  field (wc_name c) ++ [wc_level c; n2b (connect_flags c)] ++ be16 (wc_keep c)
  ++ field (wc_id c) ++ will_fields (wc_will c) ++ opt_field (wc_user c) ++ opt_field (wc_pass c).

Definition wconnect_ok (c : wconnect) : Prop :=
  text (wc_name c) /\ wc_keep c < 65536 /\ text (wc_id c)
  /\ match wc_will c with Some w => text (topic w) /\ fits16 (payload w) | None => True end
  /\ opt_text (wc_user c) /\ opt_text (wc_pass c).

(** What the CONNECT says. *)
Definition connect_of (c : wconnect) : ConnectPacket :=
  {| version := Mqtt3; client_id := wc_id c; keep_alive_seconds := wc_keep c;
     clean_session := wc_clean c; will_message := wc_will c;
     user_name := wc_user c; password := wc_pass c |}.

Definition suback_num (c : SubAckReturnCode) : N :=
  match c with SuccessQoS0 => 0 | SuccessQoS1 => 1 | SuccessQoS2 => 2 | Failure => 128 end.

Definition connack_num (c : ConnAckReturnCode) : N :=
  match c with
  | Accepted => 0 | UnacceptableProtocolVersion => 1 | IdentifierRejected => 2
  | ServerUnavailable => 3 | BadUserNameOrPassword => 4 | NotAuthorized => 5
  end.

Definition sub_entry (s : Subscription) : bytes := field (sub_topic s) ++ [n2b (qos_num (sub_qos s))].

(** First byte of every packet (CONNECT: see above). *)
Definition head_byte (p : ControlPacket) : N :=
  match p with
  | Connect _ => 0x10
  | ConnAck _ => 0x20
  | Publish p => 0x30 + bit (dup p) 8 + 2 * qos_num (qos (message p)) + bit (retain (message p)) 1
  | PubAck _ => 0x40
  | PubRec _ => 0x50
  | PubRel _ => 0x62
  | PubComp _ => 0x70
  | Subscribe _ _ => 0x82
  | SubAck _ _ => 0x90
  | Unsubscribe _ _ => 0xA2
  | UnsubAck _ => 0xB0
  | PingReq => 0xC0
  | PingResp => 0xD0
  | Disconnect => 0xE0
  end.

(** Variable header and payload; CONNECT without will in 3.1.1 form *)
Definition packet_body (p : ControlPacket) : bytes :=
  match p with
  | Connect c =>
    connect_body {| wc_name := str "MQTT"; wc_level := x04; wc_clean := clean_session c;
                    wc_keep := keep_alive_seconds c; wc_id := client_id c;
                    wc_will := will_message c; wc_user := user_name c; wc_pass := password c |}
  | ConnAck c => [n2b (bit (session_present c) 1); n2b (connack_num (return_code c))]
  | Publish p =>
    field (topic (message p))
    ++ (match pub_packet_id p with Some i => be16 i | None => [] end)
    ++ payload (message p)
  | PubAck i | PubRec i | PubRel i | PubComp i | UnsubAck i => be16 i
  | Subscribe i subs => be16 i ++ flat_map sub_entry subs
  | SubAck i codes => be16 i ++ map (fun c => n2b (suback_num c)) codes
  | Unsubscribe i topics => be16 i ++ flat_map field topics
  | PingReq | PingResp | Disconnect => []
  end.

(** Field limits of each packet *)
Definition packet_ok (p : ControlPacket) : Prop :=
  match p with
  | Connect c =>
    keep_alive_seconds c < 65536 /\ text (client_id c) /\ version c = Mqtt3
    /\ match will_message c with Some w => text (topic w) /\ fits16 (payload w) | None => True end
    /\ opt_text (user_name c) /\ opt_text (password c)
  | ConnAck _ => True
  | Publish p =>
    text (topic (message p))
    /\ match pub_packet_id p with
       | Some i => qos (message p) <> AtMostOnce /\ i < 65536
       | None => qos (message p) = AtMostOnce
       end
  | PubAck i | PubRec i | PubRel i | PubComp i | UnsubAck i => i < 65536
  | Subscribe i subs => i < 65536 /\ subs <> [] /\ Forall (fun s => text (sub_topic s)) subs
  | SubAck i codes => i < 65536
  | Unsubscribe i topics => i < 65536 /\ topics <> [] /\ Forall text topics
  | PingReq | PingResp | Disconnect => True
  end.

(** Largest remaining length of MQTT: four digits. *)
Definition mqtt_max : N := 268435455.

(** [wire p bs]: [bs] is a way to send packet [p]. *)
Definition wire (p : ControlPacket) (bs : bytes) : Prop :=
  packet_ok p /\
  exists h, varint h (lenN (packet_body p)) /\ (length h <= 4)%nat
            /\ bs = n2b (head_byte p) :: h ++ packet_body p.

(** ** A client's parser for the packets a server sends *)

Fixpoint parse_varint (digits : nat) (bs : bytes) : option (N * bytes) :=
  match digits, bs with
  | S d, b :: r =>
    if b2n b <? 128 then Some (b2n b, r)
    else match parse_varint d r with
         | Some (v, r') => Some (b2n b - 128 + 128 * v, r')
         | None => None
         end
  | _, _ => None
  end.

Definition parse_be16 (bs : bytes) : option (N * bytes) :=
  match bs with a :: b :: r => Some (b2n a * 256 + b2n b, r) | _ => None end.

Definition parse_field (bs : bytes) : option (bytes * bytes) :=
  match parse_be16 bs with
  | Some (n, r) => if lenN r <? n then None else Some (takeN n r, dropN n r)
  | None => None
  end.

(** exactly two bytes *)
Definition parse_id (bs : bytes) : option N :=
  match bs with [a; b] => Some (b2n a * 256 + b2n b) | _ => None end.

Definition parse_qos (n : N) : option QoS :=
  match n with 0 => Some AtMostOnce | 1 => Some AtLeastOnce | 2 => Some ExactlyOnce | _ => None end.

Definition parse_connack_code (b : byte) : option ConnAckReturnCode :=
  match b2n b with
  | 0 => Some Accepted | 1 => Some UnacceptableProtocolVersion | 2 => Some IdentifierRejected
  | 3 => Some ServerUnavailable | 4 => Some BadUserNameOrPassword | 5 => Some NotAuthorized
  | _ => None
  end.

Fixpoint parse_codes (bs : bytes) : option (list SubAckReturnCode) :=
  match bs with
  | [] => Some []
  | b :: r =>
    match (match b2n b with 0 => Some SuccessQoS0 | 1 => Some SuccessQoS1 | 2 => Some SuccessQoS2
                       | 128 => Some Failure | _ => None end), parse_codes r with
    | Some c, Some cs => Some (c :: cs)
    | _, _ => None
    end
  end.

Definition parse_publish (first : N) (body : bytes) : option ControlPacket :=
  match parse_qos (first / 2 mod 4), parse_field body with
  | Some q, Some (t, r) =>
    let mk i pl := Publish {| pub_packet_id := i; dup := N.odd (first / 8);
                              message := {| topic := t; payload := pl; qos := q;
                                            retain := N.odd first |} |} in
    match q with
    | AtMostOnce => Some (mk None r)
    | _ => match parse_be16 r with Some (i, pl) => Some (mk (Some i) pl) | None => None end
    end
  | _, _ => None
  end.

Definition parse_body (first : N) (body : bytes) : option ControlPacket :=
  match first with
  | 0x20 =>
    match body with
    | [f; c] =>
      match parse_connack_code c with
      | Some c =>
        if b2n f <=? 1 then Some (ConnAck {| session_present := b2n f =? 1; return_code := c |}) else None
      | None => None
      end
    | _ => None
    end
  | 0x40 => option_map PubAck (parse_id body)
  | 0x50 => option_map PubRec (parse_id body)
  | 0x62 => option_map PubRel (parse_id body)
  | 0x70 => option_map PubComp (parse_id body)
  | 0x90 =>
    match parse_be16 body with
    | Some (i, r) => option_map (SubAck i) (parse_codes r)
    | None => None
    end
  | 0xB0 => option_map UnsubAck (parse_id body)
  | 0xD0 => match body with [] => Some PingResp | _ => None end
  | _ => if first / 16 =? 3 then parse_publish first body else None
  end.

(** One packet and the bytes after it. *)
Definition client_parse (bs : bytes) : option (ControlPacket * bytes) :=
  match bs with
  | [] => None
  | b :: r =>
    match parse_varint 4 r with
    | Some (n, r') =>
      if lenN r' <? n then None
      else match parse_body (b2n b) (takeN n r') with
           | Some p => Some (p, dropN n r')
           | None => None
           end
    | None => None
    end
  end.

(** ** What a broker may take a byte sequence for *)

(** [conforms b n body p]: first byte [b], declared remaining length [n] and consumed bytes [body]
    of a packet understood as [p]. Exact for PUBLISH, SUBSCRIBE and UNSUBSCRIBE. The declared length
    is not compared with the body for the other kinds, a CONNECT carries no will and its protocol
    name, level and will flags are free, and the low first-byte bits are free for CONNECT, PINGREQ
    and DISCONNECT: what this broker leaves unchecked. *)
Definition conforms (b n : N) (body : bytes) (p : ControlPacket) : Prop :=
  packet_ok p /\
  match p with
  | Connect c =>
    b / 16 = 1 /\ will_message c = None /\
    exists name level flags,
      text name /\ N.odd (b2n flags / 2) = clean_session c
      /\ N.odd (b2n flags / 128) = is_some (user_name c)
      /\ N.odd (b2n flags / 64) = is_some (password c)
      /\ body = field name ++ [level; flags] ++ be16 (keep_alive_seconds c) ++ field (client_id c)
                ++ opt_field (user_name c) ++ opt_field (password c)
  | Publish _ | Subscribe _ _ | Unsubscribe _ _ =>
    b = head_byte p /\ body = packet_body p /\ n = lenN (packet_body p)
  | PubAck _ | PubRec _ | PubRel _ | PubComp _ => b = head_byte p /\ body = packet_body p
  | PingReq => b / 16 = 12 /\ body = []
  | Disconnect => b / 16 = 14 /\ body = []
  | ConnAck _ | SubAck _ _ | UnsubAck _ | PingResp => False
  end.

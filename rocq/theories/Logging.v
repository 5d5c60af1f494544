(** What is written to the log: the [log] macros of src/broker/client_packet_handler.rs,
    src/broker/messaging/messaging_service.rs, src/mqtt/listener.rs and src/application.rs, with the texts that
    [format!] makes of their arguments.

    A record is its level and its text. What the logger (env_logger) puts around the text, and its filter by module,
    are not modelled. The records made before the broker is ready (application.rs:15-62, listener.rs:27, 30,
    messaging_service.rs:86) are in StartLog.v. The error of a failed accept (listener.rs:61) is in Accept.v, the three
    trace records of get_string (mqtt_bytes_stream.rs:199-202) in Traces.v. Messages of panics
    do not go through the logger. *)
From Verif Require Import Base Packets HashMap Subscriptions Messaging Handler Decoder ReadStream Encoder WriteStream System.
Open Scope N_scope.

(** log::Level *)
Inductive level := Error | Warn | Info | Debug | Trace.

Record entry := { lvl : level; said : bytes }.

Definition rank (l : level) : nat :=
  match l with Error => 1 | Warn => 2 | Info => 3 | Debug => 4 | Trace => 5 end%nat.

(** The entries a logger set to a level keeps (RUST_LOG; the image of the Dockerfile has INFO, line 34, the
    project's .env has debug, line 2). *)
Definition upto (l : level) (rs : list entry) : list entry := filter (fun r => Nat.leb (rank (lvl r)) (rank l)) rs.

(** Texts that come from the libraries. *)
Record library := {
  of_address : N -> bytes;             (* Debug of a SocketAddr *)
  of_sender : conn -> bytes;           (* Debug of a mpsc::Sender *)
  of_string : bytes -> bytes;          (* Debug of a string that is not all ASCII *)
  of_refusal : bytes -> bytes -> bytes;(* Debug of the AuthenticationError for a user name and a password *)
  of_error : bytes }.                  (* Debug of an io::Error *)

(** ** Debug of strings and byte strings *)

Definition hex_digit (n : N) : byte := if n <? 10 then n2b (48 + n) else n2b (87 + n).

Definition ascii (b : byte) : bool := b2n b <? 128.

(** char::escape_debug for an ASCII character inside a string *)
Definition escape_char (b : byte) : bytes :=
  match b with
  | x00 => str "\0" | x09 => str "\t" | x0a => str "\n" | x0d => str "\r"
  | x22 => [x5c; x22] | x5c => [x5c; x5c]
  | _ => if (b2n b <? 32) || (b2n b =? 127) then
           str "\u{" ++ (if b2n b <? 16 then [] else [hex_digit (b2n b / 16)]) ++ [hex_digit (b2n b mod 16)] ++ str "}"
         else [b]
  end.

Definition show_string (L : library) (s : bytes) : bytes :=
  if forallb ascii s then [x22] ++ flat_map escape_char s ++ [x22] else of_string L s.

(** bytes 1.x: Debug of BytesMut *)
Definition escape_byte (b : byte) : bytes :=
  match b with
  | x00 => str "\0" | x09 => str "\t" | x0a => str "\n" | x0d => str "\r"
  | x22 => [x5c; x22] | x5c => [x5c; x5c]
  | _ => if (32 <=? b2n b) && (b2n b <? 127) then [b]
         else str "\x" ++ [hex_digit (b2n b / 16); hex_digit (b2n b mod 16)]
  end.

Definition show_bytes (s : bytes) : bytes := str "b" ++ [x22] ++ flat_map escape_byte s ++ [x22].

(** Decimal; [fuel] digits at most (a u16 has five). *)
Fixpoint decimal (fuel : nat) (n : N) : bytes :=
  match fuel with
  | O => []
  | S fuel' => (if n <? 10 then [] else decimal fuel' (n / 10)) ++ [n2b (48 + n mod 10)]
  end.

Definition show_u16 (n : N) : bytes := decimal 5 n.

(** ** The derived Debug of the packet types (src/mqtt/packets/*.rs, src/mqtt/message.rs, src/mqtt/events.rs) *)

Definition show_bool (b : bool) : bytes := if b then str "true" else str "false".

Definition show_option {A} (f : A -> bytes) (o : option A) : bytes :=
  match o with None => str "None" | Some a => str "Some(" ++ f a ++ str ")" end.

(** [", "] between the elements *)
Fixpoint commas (l : list bytes) : bytes :=
  match l with
  | [] => []
  | [a] => a
  | a :: l' => a ++ str ", " ++ commas l'
  end.

Definition show_list {A} (f : A -> bytes) (l : list A) : bytes := str "[" ++ commas (map f l) ++ str "]".

Definition member (name : bytes) (value : bytes) : bytes := name ++ str ": " ++ value.

Definition struct (name : bytes) (fields : list bytes) : bytes := name ++ str " { " ++ commas fields ++ str " }".

Definition tuple (name : bytes) (fields : list bytes) : bytes := name ++ str "(" ++ commas fields ++ str ")".

Definition show_version (v : ProtocolVersion) : bytes :=
  match v with Mqtt3 => str "Mqtt3" | Mqtt5 => str "Mqtt5" end.

Definition show_qos (q : QoS) : bytes :=
  match q with AtMostOnce => str "AtMostOnce" | AtLeastOnce => str "AtLeastOnce" | ExactlyOnce => str "ExactlyOnce" end.

Definition show_message (L : library) (m : Message) : bytes :=
  struct (str "Message") [member (str "topic") (show_string L (topic m)); member (str "payload") (show_bytes (payload m));
                          member (str "qos") (show_qos (qos m)); member (str "retain") (show_bool (retain m))].

Definition show_connect (L : library) (c : ConnectPacket) : bytes :=
  struct (str "ConnectPacket")
    [member (str "version") (show_version (version c)); member (str "client_id") (show_string L (client_id c));
     member (str "keep_alive_seconds") (show_u16 (keep_alive_seconds c));
     member (str "clean_session") (show_bool (clean_session c));
     member (str "will_message") (show_option (show_message L) (will_message c));
     member (str "user_name") (show_option (show_string L) (user_name c));
     member (str "password") (show_option (show_string L) (password c))].

Definition show_connack_code (c : ConnAckReturnCode) : bytes :=
  match c with
  | Accepted => str "Accepted" | UnacceptableProtocolVersion => str "UnacceptableProtocolVersion"
  | IdentifierRejected => str "IdentifierRejected" | ServerUnavailable => str "ServerUnavailable"
  | BadUserNameOrPassword => str "BadUserNameOrPassword" | NotAuthorized => str "NotAuthorized"
  end.

Definition show_suback_code (c : SubAckReturnCode) : bytes :=
  match c with
  | SuccessQoS0 => str "SuccessQoS0" | SuccessQoS1 => str "SuccessQoS1" | SuccessQoS2 => str "SuccessQoS2"
  | Failure => str "Failure"
  end.

Definition show_publish (L : library) (p : PublishPacket) : bytes :=
  struct (str "PublishPacket") [member (str "packet_id") (show_option show_u16 (pub_packet_id p));
                                member (str "dup") (show_bool (dup p)); member (str "message") (show_message L (message p))].

Definition show_subscription (L : library) (s : Subscription) : bytes :=
  struct (str "Subscription") [member (str "topic") (show_string L (sub_topic s)); member (str "qos") (show_qos (sub_qos s))].

(** packets that have a packet id only *)
Definition show_id (variant packet : bytes) (i : N) : bytes :=
  tuple variant [struct packet [member (str "packet_id") (show_u16 i)]].

(** mod.rs:102-118 *)
Definition show_packet (L : library) (p : ControlPacket) : bytes :=
  match p with
  | Connect c => tuple (str "Connect") [show_connect L c]
  | ConnAck c => tuple (str "ConnAck") [struct (str "ConnAckPacket")
      [member (str "session_present") (show_bool (session_present c));
       member (str "return_code") (show_connack_code (return_code c))]]
  | Publish p => tuple (str "Publish") [show_publish L p]
  | PubAck i => show_id (str "PubAck") (str "PubAckPacket") i
  | PubRec i => show_id (str "PubRec") (str "PubRecPacket") i
  | PubRel i => show_id (str "PubRel") (str "PubRelPacket") i
  | PubComp i => show_id (str "PubComp") (str "PubCompPacket") i
  | Subscribe i ss => tuple (str "Subscribe") [struct (str "SubscribePacket")
      [member (str "packet_id") (show_u16 i); member (str "subscriptions") (show_list (show_subscription L) ss)]]
  | SubAck i cs => tuple (str "SubAck") [struct (str "SubAckPacket")
      [member (str "packet_id") (show_u16 i); member (str "return_codes") (show_list show_suback_code cs)]]
  | Unsubscribe i ts => tuple (str "Unsubscribe") [struct (str "UnsubscribePacket")
      [member (str "packet_id") (show_u16 i); member (str "topics") (show_list (show_string L) ts)]]
  | UnsubAck i => show_id (str "UnsubAck") (str "UnSubAckPacket") i
  | PingReq => str "PingReq"
  | PingResp => str "PingResp"
  | Disconnect => tuple (str "Disconnect") [str "DisconnectPacket"]
  end.

(** Display of a packet (mod.rs:120-139) *)
Definition packet_name (p : ControlPacket) : bytes :=
  match p with
  | Connect _ => str "CONNECT" | ConnAck _ => str "CONNACK" | Publish _ => str "PUBLISH" | PubAck _ => str "PUBACK"
  | PubRec _ => str "PUBREC" | PubRel _ => str "PUBREL" | PubComp _ => str "PUBCOMP" | Subscribe _ _ => str "SUBSCRIBE"
  | SubAck _ _ => str "SUBACK" | Unsubscribe _ _ => str "UNSUBSCRIBE" | UnsubAck _ => str "UNSUBACK"
  | PingReq => str "PINGREQ" | PingResp => str "PINGRESP" | Disconnect => str "DISCONNECT"
  end.

(** events.rs:5-11 *)
Definition show_client_event (L : library) (e : ClientEvent) : bytes :=
  match e with
  | Connected c a k => tuple (str "Connected") [show_connect L c; of_address L a; of_sender L k]
  | ClientPacket cid p k => tuple (str "ControlPacket") [show_string L cid; show_packet L p; of_sender L k]
  | Disconnected cid => tuple (str "Disconnected") [show_string L cid]
  | ConnectionLost cid => tuple (str "ConnectionLost") [show_string L cid]
  end.

(** events.rs:13-17 *)
Definition show_server_event (L : library) (e : ServerEvent) : bytes :=
  match e with
  | ServerPacket p => tuple (str "ControlPacket") [show_packet L p]
  | ServerDisconnect => str "Disconnect"
  end.

(** ** The handler *)

Definition entry_of (l : level) (t : bytes) : entry := {| lvl := l; said := t |}.

(** on_packet and the start of what it calls (client_packet_handler.rs:90, 109, 178, 213-216, 236, 265) *)
Definition packet_entries (L : library) (cid : ClientId) (p : ControlPacket) : list entry :=
  entry_of Trace (str "Got packet " ++ show_packet L p) ::
  match p with
  | Publish p => [entry_of Debug (str "Client " ++ show_string L cid ++ str " published message on topic "
                                  ++ show_string L (topic (message p)))]
  | Subscribe _ ss => [entry_of Debug (str "Client " ++ show_string L cid ++ str " subscribed to topics "
                                       ++ show_list (show_subscription L) ss)]
  | Unsubscribe _ ts => [entry_of Debug (str "Client " ++ show_string L cid ++ str " unsubscribed from topics "
                                         ++ show_list (show_string L) ts)]
  | PingReq => []
  | Disconnect => [entry_of Debug (str "Client " ++ show_string L cid ++ str " disconnected")]
  | _ => [entry_of Error (str "Packet " ++ packet_name p ++ str " not supported")]
  end.

(** What is logged when the handler takes an event, up to its first await (63, 120, 125, 193) *)
Definition event_entries (auth : bytes -> bytes -> bool) (L : library) (e : ClientEvent) : list entry :=
  entry_of Trace (str "Got event " ++ show_client_event L e) ::
  match e with
  | Connected c _ _ =>
    entry_of Debug (str "New client " ++ show_string L (client_id c) ++ str " connected") ::
    match user_name c, password c with
    | Some u, Some p =>
      if auth u p then []
      else [entry_of Info (str "Client " ++ u ++ str " authentication error: " ++ of_refusal L u p)]
    | _, _ => []
    end
  | ClientPacket cid p _ => packet_entries L cid p
  | Disconnected _ => []
  | ConnectionLost cid => [entry_of Info (str "Client " ++ show_string L cid ++ str " disconnected unexpectedly")]
  end.

(** A call of the service: the warnings of senders_to_publish (messaging_service.rs:217-237), and the handler's own
    error when a PINGREQ finds no session (client_packet_handler.rs:311-314; nothing else calls SessionExists). *)
Definition call_entries (L : library) (m : MessagingService) {R} (op : MessagingOperation R) : list entry :=
  match op with
  | SendersToPublish t =>
    match subscribed_clients (subscriptions m) t with
    | Some client_ids =>
      flat_map (fun c => match hm_get c (sessions m) with
                         | Some _ => []
                         | None => [entry_of Warn (str "Tried to send message, but session for client "
                                                   ++ show_string L c ++ str " not found")]
                         end) client_ids
    | None => []
    end
  | SessionExists c =>
    if session_exists m c then []
    else [entry_of Error (str "Received PING from not existing session with client id " ++ c)]
  | _ => []
  end.

(** ** The steps of [System.v] *)

Definition reader_entries (L : library) (dbg : bool) (s : sys) (k : conn) : list entry :=
  match nth_error (conns s) k with
  | None => []
  | Some c =>
    match c_reader c with
    | RDone => []
    | RFirst rs =>
      match stream_read_packet dbg rs with
      | ROk p _ =>
        entry_of Trace (str "Read the first packet: " ++ show_packet L p) ::
        match p with
        | Connect c => match client_id c with
                       | [] => [entry_of Trace (str "Client did not provide client id, id will be generated")]
                       | _ => []
                       end
        | _ => [entry_of Warn (str "The first received packet is not CONNECT")]
        end
      | _ => []
      end
    | RPush _ _ _ =>
      if handler_alive (hdl s) then []
      else [entry_of Error (str "Error while sending client event to be processed: channel closed")]
    | RLoop _ rs =>
      match stream_read_packet dbg rs with
      | ROk p _ => [entry_of Trace (str "Read packet: " ++ show_packet L p)]
      | RErr _ => [entry_of Trace (str "Client read task ended")]
      | _ => []
      end
    end
  end.

Definition writer_entries (L : library) (s : sys) (k : conn) : list entry :=
  match nth_error (conns s) k with
  | None => []
  | Some c =>
    match c_writer c with
    | WClosed _ => []
    | WIdle _ =>
      match c_queue c with
      | (_, e) :: _ =>
        entry_of Trace (str "Received server event: " ++ show_server_event L e) ::
        match e with
        | ServerPacket p => [entry_of Trace (str "Writing packet: " ++ show_packet L p)]
        | ServerDisconnect => [entry_of Trace (str "Client write task ended")]
        end
      | [] => [entry_of Trace (str "Client write task ended")]
      end
    | WBusy p ws =>
      match write_packet p ws with
      | WErr _ => [entry_of Error (str "Error while writing packet: " ++ of_error L)]
      | _ => []
      end
    end
  end.

Definition handler_entries (auth : bytes -> bytes -> bool) (L : library) (s : sys) : list entry :=
  match hdl s with
  | HIdle => match events s with e :: _ => event_entries auth L e | [] => [] end
  | HBusy _ (Call op _) => call_entries L (svc s) op
  | _ => []
  end.

(** The entries of a step that is taken. *)
Definition step_entries (auth : bytes -> bytes -> bool) (L : library) (dbg : bool) (s : sys) (l : label) : list entry :=
  match l with
  | LAccept _ _ _ => []
  | LReader k _ => reader_entries L dbg s k
  | LWriter k => writer_entries L s k
  | LHandler _ => handler_entries auth L s
  | LStopHandler => [entry_of Debug (str "Stopping manager..."); entry_of Debug (str "Stopped Manager")]
  | LStopListener => [entry_of Trace (str "Stopping listener")]
  | LStopService => [entry_of Debug (str "Stopped Messaging Manager")]
  | LCtrlC => [entry_of Info (str "Stopping RatelMQ...")]
  | LMain => match main s, hdl s with
             | MJoinHandler, HStopped => [entry_of Info (str "RatelMQ stopped")]
             | _, _ => []
             end
  end.

Definition by_handler (l : label) : bool := match l with LHandler _ => true | _ => false end.

(** The log of a run: all tasks, and those of the handler (with the service) or of all others. *)
Fixpoint run_entries (which : label -> bool) (auth : bytes -> bytes -> bool) (L : library) (dbg : bool) (s : sys)
    (ls : list label) : list entry :=
  match ls with
  | [] => []
  | l :: ls' =>
    match step auth dbg s l with
    | Some s' => (if which l then step_entries auth L dbg s l else []) ++ run_entries which auth L dbg s' ls'
    | None => []
    end
  end.

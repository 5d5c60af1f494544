(** The whole broker as a transition system: connection tasks (src/mqtt/listener.rs), event handler
    task (src/broker/client_packet_handler.rs:54-82), messaging service task
    (src/broker/messaging/messaging_service.rs:86-136) and shutdown (src/application.rs:14-76),
    interleaved arbitrarily.

    One step of a task runs up to the next point where it can be observed or can block: a whole
    read_packet, a send on a channel, one service call, a whole write_packet. All data a peer will
    ever send, and all reactions of the peer's socket to writes, are chosen when its connection is
    accepted; when they happen is decided by when the steps are taken (that this is no restriction is
    property C111, [Prop_live.v]). Not modelled: the tokio
    scheduler and its threads (any enabled task may take the next step; see [Pool.v]), startup
    (settings, binding of addresses) and the time at which tasks are dropped when the runtime shuts
    down (no step is taken after main returned). A write_packet that blocks takes no step; what the
    peer has got by then is [peer_got] in [Prop_rest.v]. *)
From Verif Require Import Base Packets HashMap Messaging Handler Decoder ReadStream Conn Encoder WriteStream.

(** mpsc::channel(32): application.rs:27, listener.rs:72 *)
Definition channel_size : nat := 32.

(** connection_read_loop (listener.rs:88-131) at its await points. *)
Inductive reader :=
| RFirst (rs : rstream)                              (* line 96 *)
| RPush (e : ClientEvent) (cid : ClientId) (rs : rstream) (* lines 110, 126 *)
| RLoop (cid : ClientId) (rs : rstream)              (* line 121 *)
| RDone.

(** connection_write_loop (listener.rs:133-154) at its await points. *)
Inductive writer :=
| WIdle (ws : wstream)                        (* line 137 *)
| WBusy (p : ControlPacket) (ws : wstream)    (* line 143 *)
| WClosed (ws : wstream).                     (* ended; the receiver is dropped *)

(** One connection (handle_connection, listener.rs:66-86). Queued events carry the connection whose
    event caused them. [c_rsock], [c_wsock], [c_read] and [c_sent] only record what happened: the
    peer, the packets read, and the packets taken by the writer. *)
Record cstate := {
  c_addr : N;
  c_rsock : rsock;
  c_wsock : wsock;
  c_reader : reader;
  c_read : list ControlPacket;
  c_queue : list (option conn * ServerEvent);
  c_writer : writer;
  c_sent : list (option conn * ControlPacket) }.

(** ClientPacketHandler::run (client_packet_handler.rs:54-82): in [select!], processing an event
    whose own sender is [tx], panicked, or left by ctrl-c. *)
Inductive handler :=
| HIdle
| HBusy (tx : option conn) (p : prog)
| HPanicked
| HStopped.

(** run of application.rs at its await points. *)
Inductive mstage :=
| MServing          (* line 64 *)
| MJoinListeners    (* line 69 *)
| MJoinService      (* line 71 *)
| MJoinHandler      (* line 73 *)
| MExited           (* line 76 *)
| MPanicked.        (* an unwrap failed: line 67 or 73 *)

(** [handled] and [log] only record what happened: events taken by the handler, and events it
    sent: cause, destination, event. *)
Record sys := {
  conns : list cstate;
  events : list ClientEvent;
  hdl : handler;
  svc : MessagingService;
  service_running : bool;
  listeners : nat;
  ctrl_c : bool;
  main : mstage;
  handled : list (Z * ClientEvent);
  log : list (option conn * conn * ServerEvent) }.

Definition sys_init (n : nat) : sys :=
  {| conns := []; events := []; hdl := HIdle; svc := MessagingService_new; service_running := true;
     listeners := n; ctrl_c := false; main := MServing; handled := []; log := [] |}.

Inductive label :=
| LAccept (r : rsock) (w : wsock) (address : N)   (* a listener accepts a connection *)
| LReader (k : conn) (uuid : bytes)               (* the read task of connection k; a fresh id *)
| LWriter (k : conn)
| LHandler (now : Z)
| LStopHandler
| LStopListener
| LStopService
| LCtrlC
| LMain.

(** Updates *)

Definition set_conns cs s :=
  {| conns := cs; events := events s; hdl := hdl s; svc := svc s; service_running := service_running s;
     listeners := listeners s; ctrl_c := ctrl_c s; main := main s; handled := handled s; log := log s |}.

Definition set_events es s :=
  {| conns := conns s; events := es; hdl := hdl s; svc := svc s; service_running := service_running s;
     listeners := listeners s; ctrl_c := ctrl_c s; main := main s; handled := handled s; log := log s |}.

Definition set_hdl h s :=
  {| conns := conns s; events := events s; hdl := h; svc := svc s; service_running := service_running s;
     listeners := listeners s; ctrl_c := ctrl_c s; main := main s; handled := handled s; log := log s |}.

Definition set_svc m s :=
  {| conns := conns s; events := events s; hdl := hdl s; svc := m; service_running := service_running s;
     listeners := listeners s; ctrl_c := ctrl_c s; main := main s; handled := handled s; log := log s |}.

Definition set_service_running b s :=
  {| conns := conns s; events := events s; hdl := hdl s; svc := svc s; service_running := b;
     listeners := listeners s; ctrl_c := ctrl_c s; main := main s; handled := handled s; log := log s |}.

Definition set_listeners n s :=
  {| conns := conns s; events := events s; hdl := hdl s; svc := svc s; service_running := service_running s;
     listeners := n; ctrl_c := ctrl_c s; main := main s; handled := handled s; log := log s |}.

Definition set_ctrl_c b s :=
  {| conns := conns s; events := events s; hdl := hdl s; svc := svc s; service_running := service_running s;
     listeners := listeners s; ctrl_c := b; main := main s; handled := handled s; log := log s |}.

Definition set_main m s :=
  {| conns := conns s; events := events s; hdl := hdl s; svc := svc s; service_running := service_running s;
     listeners := listeners s; ctrl_c := ctrl_c s; main := m; handled := handled s; log := log s |}.

Definition set_handled h s :=
  {| conns := conns s; events := events s; hdl := hdl s; svc := svc s; service_running := service_running s;
     listeners := listeners s; ctrl_c := ctrl_c s; main := main s; handled := h; log := log s |}.

Definition set_log l s :=
  {| conns := conns s; events := events s; hdl := hdl s; svc := svc s; service_running := service_running s;
     listeners := listeners s; ctrl_c := ctrl_c s; main := main s; handled := handled s; log := l |}.

Fixpoint update {A} (k : nat) (x : A) (l : list A) : list A :=
  match l, k with
  | [], _ => []
  | _ :: l', O => x :: l'
  | y :: l', S k' => y :: update k' x l'
  end.

Definition set_conn k c s := set_conns (update k c (conns s)) s.

Definition set_reader r c :=
  {| c_addr := c_addr c; c_rsock := c_rsock c; c_wsock := c_wsock c; c_reader := r; c_read := c_read c;
     c_queue := c_queue c; c_writer := c_writer c; c_sent := c_sent c |}.

Definition set_read ps c :=
  {| c_addr := c_addr c; c_rsock := c_rsock c; c_wsock := c_wsock c; c_reader := c_reader c; c_read := ps;
     c_queue := c_queue c; c_writer := c_writer c; c_sent := c_sent c |}.

Definition set_queue q c :=
  {| c_addr := c_addr c; c_rsock := c_rsock c; c_wsock := c_wsock c; c_reader := c_reader c; c_read := c_read c;
     c_queue := q; c_writer := c_writer c; c_sent := c_sent c |}.

Definition set_writer w c :=
  {| c_addr := c_addr c; c_rsock := c_rsock c; c_wsock := c_wsock c; c_reader := c_reader c; c_read := c_read c;
     c_queue := c_queue c; c_writer := w; c_sent := c_sent c |}.

Definition set_sent ps c :=
  {| c_addr := c_addr c; c_rsock := c_rsock c; c_wsock := c_wsock c; c_reader := c_reader c; c_read := c_read c;
     c_queue := c_queue c; c_writer := c_writer c; c_sent := ps |}.

(** accept and handle_connection (listener.rs:52-86): both tasks start waiting. *)
Definition new_conn (r : rsock) (w : wsock) (address : N) : cstate :=
  {| c_addr := address; c_rsock := r; c_wsock := w; c_reader := RFirst (connection_stream r); c_read := [];
     c_queue := []; c_writer := WIdle (connection_wstream w); c_sent := [] |}.

(** listener.rs:101-108: the id given by the client or else a generated one *)
Definition chosen_id (c : ConnectPacket) (uuid : bytes) : ClientId :=
  match client_id c with [] => uuid | _ :: _ => client_id c end.

Definition with_id (c : ConnectPacket) (cid : ClientId) : ConnectPacket :=
  {| version := version c; clean_session := clean_session c; keep_alive_seconds := keep_alive_seconds c;
     client_id := cid; will_message := will_message c; user_name := user_name c; password := password c |}.

(** The sender an event carries. *)
Definition event_tx (e : ClientEvent) : option conn :=
  match e with
  | Connected _ _ k | ClientPacket _ _ k => Some k
  | Disconnected _ | ConnectionLost _ => None
  end.

Definition handler_alive (h : handler) : bool :=
  match h with HIdle | HBusy _ _ => true | HPanicked | HStopped => false end.

(** Senders held by the rest of a program: those of the loop client_packet_handler.rs:224. *)
Fixpoint pending_targets (p : prog) : list conn :=
  match p with Send to _ k => to :: pending_targets k | _ => [] end.

Definition opt_is (k : conn) (o : option conn) : bool :=
  match o with Some k' => Nat.eqb k k' | None => false end.

(** Some clone of the sender of connection [k] exists: in the read task, in a queued event, in the
    handler, or in a session. *)
Definition has_sender (s : sys) (k : conn) (c : cstate) : bool :=
  match c_reader c with RDone => false | _ => true end
  || existsb (fun e => opt_is k (event_tx e)) (events s)
  || match hdl s with
     | HBusy tx p => opt_is k tx || existsb (Nat.eqb k) (pending_targets p)
     | _ => false
     end
  || (service_running s && existsb (fun x => Nat.eqb k (s_sender (snd x))) (sessions (svc s))).

(** One step of the read task. A push into the handler's channel waits while it is full and fails
    (only logged, lines 110-112 and 126-128) when the handler is gone. *)
Definition step_reader (dbg : bool) (s : sys) (k : conn) (uuid : bytes) : option sys :=
  match nth_error (conns s) k with
  | None => None
  | Some c =>
    match c_reader c with
    | RDone => None
    | RFirst rs =>
      match stream_read_packet dbg rs with
      | ROk (Connect p) rs' =>
        let cid := chosen_id p uuid in
        Some (set_conn k (set_reader (RPush (Connected (with_id p cid) (c_addr c) k) cid rs')
                            (set_read (c_read c ++ [Connect p]) c)) s)
      | ROk p _ => Some (set_conn k (set_reader RDone (set_read (c_read c ++ [p]) c)) s)
      | RErr _ | RPanic => Some (set_conn k (set_reader RDone c) s)
      | RWait | RHung | RNoFuel => None
      end
    | RPush e cid rs =>
      if handler_alive (hdl s) then
        if length (events s) <? channel_size then
          Some (set_events (events s ++ [e]) (set_conn k (set_reader (RLoop cid rs) c) s))
        else None
      else Some (set_conn k (set_reader (RLoop cid rs) c) s)
    | RLoop cid rs =>
      match stream_read_packet dbg rs with
      | ROk p rs' =>
        Some (set_conn k (set_reader (RPush (ClientPacket cid p k) cid rs')
                            (set_read (c_read c ++ [p]) c)) s)
      | RErr _ | RPanic => Some (set_conn k (set_reader RDone c) s)
      | RWait | RHung | RNoFuel => None
      end
    end
  end%nat.

(** One step of the write task: take an event, write a packet (errors are only logged, line 143), or
    end: on Disconnect, or when all senders are gone. A panic in write_packet ends the task. *)
Definition step_writer (s : sys) (k : conn) : option sys :=
  match nth_error (conns s) k with
  | None => None
  | Some c =>
    match c_writer c with
    | WClosed _ => None
    | WIdle ws =>
      match c_queue c with
      | (from, ServerPacket p) :: q =>
        Some (set_conn k (set_writer (WBusy p ws) (set_queue q (set_sent (c_sent c ++ [(from, p)]) c))) s)
      | (_, ServerDisconnect) :: _ => Some (set_conn k (set_writer (WClosed ws) (set_queue [] c)) s)
      | [] =>
        if has_sender s k c then None
        else Some (set_conn k (set_writer (WClosed ws) c) s)
      end
    | WBusy p ws =>
      match write_packet p ws with
      | WOk ws' | WErr ws' => Some (set_conn k (set_writer (WIdle ws') c) s)
      | WPanic => Some (set_conn k (set_writer (WClosed ws) (set_queue [] c)) s)
      | WWait _ | WHung => None
      end
    end
  end.

(** The handler task ends by panicking: its receiver and the events in it are dropped. *)
Definition panic_handler (s : sys) : sys := set_events [] (set_hdl HPanicked s).

(** One step of the handler: take an event (61-75), one service call, one send (waits while the
    queue is full; [unwrap] panics when the write task has ended), or finish. *)
Definition step_handler (auth : bytes -> bytes -> bool) (s : sys) (now : Z) : option sys :=
  match hdl s with
  | HPanicked | HStopped => None
  | HIdle =>
    match events s with
    | [] => None
    | e :: es =>
      Some (set_hdl (HBusy (event_tx e) (on_event auth now e))
              (set_handled (handled s ++ [(now, e)]) (set_events es s)))
    end
  | HBusy tx p =>
    match p with
    | Done => Some (set_hdl HIdle s)
    | Panic => Some (panic_handler s)
    | Call op f => let (m, r) := serve (svc s) op in Some (set_hdl (HBusy tx (f r)) (set_svc m s))
    | Send to e p' =>
      match nth_error (conns s) to with
      | None => None
      | Some c =>
        match c_writer c with
        | WClosed _ => Some (panic_handler s)
        | _ =>
          if length (c_queue c) <? channel_size then
            Some (set_hdl (HBusy tx p')
                    (set_log (log s ++ [(tx, to, e)])
                       (set_conn to (set_queue (c_queue c ++ [(tx, e)]) c) s)))
          else None
        end
      end
    end
  end%nat.

(** Shutdown. [ctrl_c_tx.send(()).unwrap()] (application.rs:67) fails if nobody listens. *)
Definition step_main (s : sys) : option sys :=
  match main s with
  | MServing | MExited | MPanicked => None
  | MJoinListeners => if Nat.eqb (listeners s) 0 then Some (set_main MJoinService s) else None
  | MJoinService => if service_running s then None else Some (set_main MJoinHandler s)
  | MJoinHandler =>
    match hdl s with
    | HStopped => Some (set_main MExited s)
    | HPanicked => Some (set_main MPanicked s)
    | _ => None
    end
  end.

Definition running (s : sys) : bool :=
  match main s with MExited | MPanicked => false | _ => true end.

Definition step (auth : bytes -> bytes -> bool) (dbg : bool) (s : sys) (l : label) : option sys :=
  if running s then
    match l with
    | LAccept r w address =>
      match listeners s with
      | O => None
      | _ => Some (set_conns (conns s ++ [new_conn r w address]) s)
      end
    | LReader k uuid => step_reader dbg s k uuid
    | LWriter k => step_writer s k
    | LHandler now => step_handler auth s now
    | LStopHandler =>   (* client_packet_handler.rs:57-60 *)
      match hdl s with
      | HIdle => if ctrl_c s then Some (set_events [] (set_hdl HStopped s)) else None
      | _ => None
      end
    | LStopListener =>  (* listener.rs:43-46 *)
      match listeners s with
      | S n => if ctrl_c s then Some (set_listeners n s) else None
      | O => None
      end
    | LStopService =>   (* messaging_service.rs:88: the handler's [messaging_tx] is gone *)
      if service_running s && negb (handler_alive (hdl s)) then Some (set_service_running false s) else None
    | LCtrlC =>         (* application.rs:64-67 *)
      match main s with
      | MServing =>
        if handler_alive (hdl s) || negb (Nat.eqb (listeners s) 0)
        then Some (set_main MJoinListeners (set_ctrl_c true s))
        else Some (set_main MPanicked s)
      | _ => None
      end
    | LMain => step_main s
    end
  else None.

Fixpoint steps (auth : bytes -> bytes -> bool) (dbg : bool) (s : sys) (ls : list label) : option sys :=
  match ls with
  | [] => Some s
  | l :: ls' => match step auth dbg s l with Some s' => steps auth dbg s' ls' | None => None end
  end.

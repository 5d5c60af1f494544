(** Clients that decide as they go. In [System.v] everything a peer will ever send, and how its socket will react to
    writes, is chosen when its connection is accepted. Here a peer may at any time send more, close or reset its
    side, and choose how its socket reacts from then on. The broker's part is that of [System.v] (listener.rs,
    client_packet_handler.rs, application.rs), unchanged; Prop_live.v proves that it makes no difference. *)
From Verif Require Import Base Packets HashMap Messaging Handler Decoder ReadStream Conn Encoder WriteStream System.

(** [sizes]: the most bytes the reads after those already determined return. *)
Definition arrive (bs : bytes) (sizes : list N) (r : rsock) : rsock :=
  {| arriving := arriving r ++ bs; ending := ending r; chunks := chunks r ++ sizes; grants := grants r; reuse := reuse r |}.

Definition finish (e : peer_end) (r : rsock) : rsock :=
  {| arriving := arriving r; ending := e; chunks := chunks r; grants := grants r; reuse := reuse r |}.

Definition react (acts : list wact) (w : wsock) : wsock :=
  {| accepted := accepted w; wacts := wacts w ++ acts; wgrants := wgrants w; wreuse := wreuse w |}.

(** The socket as the read task has it, and as it is recorded. *)
Definition on_rstream (f : rsock -> rsock) (st : rstream) : rstream := {| rbuf := rbuf st; rsk := f (rsk st) |}.

Definition on_reader (f : rsock -> rsock) (r : reader) : reader :=
  match r with
  | RFirst st => RFirst (on_rstream f st)
  | RPush e cid st => RPush e cid (on_rstream f st)
  | RLoop cid st => RLoop cid (on_rstream f st)
  | RDone => RDone
  end.

Definition on_wstream (f : wsock -> wsock) (st : wstream) : wstream := {| wbuf := wbuf st; wsk := f (wsk st) |}.

Definition on_writer (f : wsock -> wsock) (w : writer) : writer :=
  match w with
  | WIdle st => WIdle (on_wstream f st)
  | WBusy p st => WBusy p (on_wstream f st)
  | WClosed st => WClosed (on_wstream f st)
  end.

Definition on_rsock (f : rsock -> rsock) (c : cstate) : cstate :=
  {| c_addr := c_addr c; c_rsock := f (c_rsock c); c_wsock := c_wsock c; c_reader := on_reader f (c_reader c);
     c_read := c_read c; c_queue := c_queue c; c_writer := c_writer c; c_sent := c_sent c |}.

Definition on_wsock (f : wsock -> wsock) (c : cstate) : cstate :=
  {| c_addr := c_addr c; c_rsock := c_rsock c; c_wsock := f (c_wsock c); c_reader := c_reader c;
     c_read := c_read c; c_queue := c_queue c; c_writer := on_writer f (c_writer c); c_sent := c_sent c |}.

Inductive act :=
| Own (l : label)                                  (* a step of [System.v] *)
| Arrive (k : conn) (bs : bytes) (sizes : list N)  (* the peer of connection k sends *)
| Finish (k : conn) (e : peer_end)                 (* it closes or resets its side *)
| React (k : conn) (acts : list wact).             (* its socket's next reactions to writes *)

Definition live_step (auth : bytes -> bytes -> bool) (dbg : bool) (s : sys) (a : act) : option sys :=
  match a with
  | Own l => step auth dbg s l
  | Arrive k bs sizes =>
    match nth_error (conns s) k with
    | Some c => match ending (c_rsock c) with
                | PeerOpen => Some (set_conn k (on_rsock (arrive bs sizes) c) s)
                | _ => None
                end
    | None => None
    end
  | Finish k e =>
    match nth_error (conns s) k with
    | Some c => match ending (c_rsock c) with
                | PeerOpen => Some (set_conn k (on_rsock (finish e) c) s)
                | _ => None
                end
    | None => None
    end
  | React k acts =>
    match nth_error (conns s) k with
    | Some c => Some (set_conn k (on_wsock (react acts) c) s)
    | None => None
    end
  end.

Fixpoint live_steps (auth : bytes -> bytes -> bool) (dbg : bool) (s : sys) (l : list act) : option sys :=
  match l with
  | [] => Some s
  | a :: l' => match live_step auth dbg s a with Some s' => live_steps auth dbg s' l' | None => None end
  end.

Definition live_reachable (auth : bytes -> bytes -> bool) (dbg : bool) (n : nat) (s : sys) : Prop :=
  exists l, live_steps auth dbg (sys_init n) l = Some s.

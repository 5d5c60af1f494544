(** The order in which places in the handler's channel are given out. [System.v] and [Live.v] let any read task put its
    event into the channel whenever there is room. In tokio's mpsc a place is asked for with [send]
    (listener.rs:110,126); if there is none, the task queues up, and a place that becomes free belongs to the first in the
    queue from then on, whether or not that task has been woken yet. The read tasks are the channel's only senders
    (listener.rs:52-58,90-129); the handler takes (client_packet_handler.rs:54-66). Each write task's channel has one sender,
    the handler, so that nothing is to be said about those. *)
From Verif Require Import Base Packets HashMap Messaging Handler Decoder ReadStream Conn Encoder WriteStream System System_fair Live.
Open Scope nat_scope.

(** [waiting]: the read tasks in the queue, first in first. [granted]: those that have been given a place and have not
    put their event there yet. *)
Record fsys := { base : sys; waiting : list conn; granted : list conn }.

Definition fifo_init (n : nat) : fsys := {| base := sys_init n; waiting := []; granted := [] |}.

Definition mem (k : conn) (l : list conn) : bool := existsb (Nat.eqb k) l.
Definition drop (k : conn) (l : list conn) : list conn := filter (fun x => negb (Nat.eqb k x)) l.

(** The read task of [k] is at [send]. *)
Definition pushing (s : sys) (k : conn) : bool :=
  match nth_error (conns s) k with
  | Some c => match c_reader c with RPush _ _ _ => true | _ => false end
  | None => false
  end.

Definition has_place (f : fsys) : bool := length (events (base f)) + length (granted f) <? channel_size.

Definition takes (s : sys) (a : act) : bool :=
  match a, hdl s with Own (LHandler _), HIdle => true | _, _ => false end.

(** The handler has taken an event: the place is the first one's in the queue. *)
Definition hand_over (f : fsys) (s : sys) : fsys :=
  match waiting f with
  | [] => {| base := s; waiting := []; granted := granted f |}
  | k :: w => {| base := s; waiting := w; granted := granted f ++ [k] |}
  end.

Definition keep (f : fsys) (s : sys) : fsys := {| base := s; waiting := waiting f; granted := granted f |}.

(** The receiver is gone: [send] returns an error (listener.rs:110-112,126-129). *)
Definition closed (s : sys) : fsys := {| base := s; waiting := []; granted := [] |}.

Definition joins (f : fsys) (a : act) : bool :=
  match a with
  | Own (LReader k _) =>
    pushing (base f) k && handler_alive (hdl (base f)) && negb (mem k (granted f)) && negb (mem k (waiting f)) && negb (has_place f)
  | _ => false
  end.

Definition fifo_step (auth : bytes -> bytes -> bool) (dbg : bool) (f : fsys) (a : act) : option fsys :=
  match a with
  | Own (LReader k u) =>
    if pushing (base f) k && handler_alive (hdl (base f)) then
      if mem k (granted f) then
        option_map (fun s => {| base := s; waiting := waiting f; granted := drop k (granted f) |}) (live_step auth dbg (base f) a)
      else if mem k (waiting f) then None
      else if has_place f then option_map (keep f) (live_step auth dbg (base f) a)
      else if running (base f) then Some {| base := base f; waiting := waiting f ++ [k]; granted := granted f |} else None
    else option_map (keep f) (live_step auth dbg (base f) a)
  | _ =>
    option_map (fun s => if handler_alive (hdl s) then if takes (base f) a then hand_over f s else keep f s else closed s)
      (live_step auth dbg (base f) a)
  end.

Fixpoint fifo_steps (auth : bytes -> bytes -> bool) (dbg : bool) (f : fsys) (l : list act) : option fsys :=
  match l with
  | [] => Some f
  | a :: l' => match fifo_step auth dbg f a with Some f' => fifo_steps auth dbg f' l' | None => None end
  end.

Definition fifo_reachable (auth : bytes -> bytes -> bool) (dbg : bool) (n : nat) (f : fsys) : Prop :=
  exists l, fifo_steps auth dbg (fifo_init n) l = Some f.

(** A task can go on: queueing up is going on, waiting in the queue is not. *)
Definition fifo_can auth dbg (t : task) (f : fsys) : Prop :=
  exists l, runs t (Some l) = true /\ fifo_step auth dbg f (Own l) <> None.

(** An infinite run in which no task that can always go on is passed over for ever: weak fairness, and nothing else. *)
Definition own_label (a : option act) : option label := match a with Some (Own l) => Some l | _ => None end.

Record fifo_fair_run auth dbg n (run : nat -> fsys) (lab : nat -> option act) : Prop := {
  ff_start : fifo_reachable auth dbg n (run 0);
  ff_step : forall i, match lab i with
                      | Some a => fifo_step auth dbg (run i) a = Some (run (S i))
                      | None => run (S i) = run i
                      end;
  ff_tasks : forall t i, exists j, i <= j /\ (runs t (own_label (lab j)) = true \/ ~ fifo_can auth dbg t (run j)) }.

(** The packets one connection's read loop obtains, byte level: the successive read_packet calls
    of src/mqtt/listener.rs:96 and 121 on a stream created at line 80 with capacity 4096.
    What the loop does with each packet is in [System.v]. *)
From Verif Require Import Base Packets Decoder ReadStream.
Open Scope N_scope.

(** listener.rs:80 *)
Definition listener_buffer_size : N := 4096.

(** Why a sequence of read_packet calls stopped. *)
Inductive rend :=
| EndErr (e : err)    (* an error: the loop ends, listener.rs:121 *)
| EndPanic            (* the task panicked *)
| EndWait             (* waiting for the peer *)
| EndHung             (* spinning in get_bytes *)
| EndNoFuel.

(** Repeated read_packet. Every packet takes at least two bytes, so the number of pending bytes
    plus one is enough fuel (theorem [read_all_fuel]). *)
Fixpoint read_all_loop (fuel : nat) (dbg : bool) (st : rstream) : list ControlPacket * rend :=
  match fuel with
  | O => ([], EndNoFuel)
  | S fuel' =>
    match stream_read_packet dbg st with
    | ROk p st' => let '(ps, e) := read_all_loop fuel' dbg st' in (p :: ps, e)
    | RErr e => ([], EndErr e)
    | RPanic => ([], EndPanic)
    | RWait => ([], EndWait)
    | RHung => ([], EndHung)
    | RNoFuel => ([], EndNoFuel)
    end
  end.

Definition read_all (dbg : bool) (st : rstream) : list ControlPacket * rend :=
  read_all_loop (S (length (pending st))) dbg st.

(** The stream of a new connection on a socket: listener.rs:80. *)
Definition connection_stream (s : rsock) : rstream := rstream_new listener_buffer_size s.

(** src/mqtt/transport/mqtt_bytes_stream.rs, reading side (MqttBytesReadStream, lines 178-266;
    the reading methods of MqttBytesStream, lines 37-118, are the same code). *)
From Verif Require Import Base Packets Decoder.
Open Scope N_scope.

(** [bytes::BytesMut]: content and capacity. [len() <= capacity()] always. *)
Record BytesMut := { data : bytes; cap : N }.

(** [BytesMut::with_capacity(n)]: capacity n exactly, empty. *)
Definition with_capacity (n : N) : BytesMut := {| data := []; cap := n |}.

(** [split_to(n)]: the first n bytes leave the buffer and the capacity of what remains is smaller by n
    (bytes 1.x: [set_start] does [self.cap -= start]). *)
Definition consume (n : N) (b : BytesMut) : BytesMut :=
  {| data := dropN n (data b); cap := cap b - n |}.

(** [advance(n)] (used by get_u8, get_u16 and tokio's write_buf): the same, except that since bytes 1.7
    ([reuse = true]) taking out all there is keeps the capacity ([BytesMut::clear]). Cargo.toml asks for
    1.0.1 or later. *)
Definition advance (reuse : bool) (n : N) (b : BytesMut) : BytesMut :=
  {| data := dropN n (data b); cap := if reuse && (n =? lenN (data b)) then cap b else cap b - n |}.

(** What the peer does after its last byte: keeps the connection open and silent,
    closes it, or the socket reports an error. *)
Inductive peer_end := PeerOpen | PeerEof | PeerError.

(** The environment of one connection's reading side. *)
Record rsock := {
  arriving : bytes;      (* bytes the peer sends, not yet read, in order *)
  ending : peer_end;     (* what follows them *)
  chunks : list N;       (* most bytes successive reads return; [] = as many as fit *)
  grants : list N;       (* capacity successive reallocations give beyond what was asked *)
  reuse : bool }.        (* version of the bytes library: see [advance] *)

(** MqttBytesReadStream (mqtt_bytes_stream.rs:18-21) *)
Record rstream := { rbuf : BytesMut; rsk : rsock }.

(** Result of an asynchronous read: value, error, panic, waits forever for the peer,
    spins forever, or (excluded by theorems) fuel exhausted. *)
Inductive rout (A : Type) : Type :=
| ROk (a : A) (st : rstream)
| RErr (e : err)
| RPanic
| RWait
| RHung
| RNoFuel.
Arguments ROk {A} a st.
Arguments RErr {A} e.
Arguments RPanic {A}.
Arguments RWait {A}.
Arguments RHung {A}.
Arguments RNoFuel {A}.

(** MqttBytesReadStream::new (mqtt_bytes_stream.rs:179-184) *)
Definition rstream_new (buffer_size : N) (s : rsock) : rstream :=
  {| rbuf := with_capacity buffer_size; rsk := s |}.

(** BufMut::chunk_mut of BytesMut: if the buffer is full, [reserve(64)]; the resulting
    capacity is at least len + 64, how much more is the allocator's choice. *)
Definition grow_if_full (st : rstream) : rstream :=
  if cap (rbuf st) =? lenN (data (rbuf st)) then
    {| rbuf := {| data := data (rbuf st);
                  cap := lenN (data (rbuf st)) + 64 + hd 0 (grants (rsk st)) |};
       rsk := {| arriving := arriving (rsk st); ending := ending (rsk st);
                 chunks := chunks (rsk st); grants := tl (grants (rsk st)); reuse := reuse (rsk st) |} |}
  else st.

(** [read_buf(&mut self.read_buffer).await] (tokio): reads at least one and at most
    spare-capacity many bytes; 0 at end of file; pending while the peer is silent. *)
Definition read_buf (st0 : rstream) : rout N :=
  let st := grow_if_full st0 in
  match arriving (rsk st) with
  | [] =>
    match ending (rsk st) with
    | PeerOpen => RWait
    | PeerEof => ROk 0 st
    | PeerError => RErr ErrIo
    end
  | _ :: _ =>
    let spare := cap (rbuf st) - lenN (data (rbuf st)) in
    let most := match chunks (rsk st) with [] => spare | c :: _ => N.max 1 c end in
    let n := N.min most (N.min spare (lenN (arriving (rsk st)))) in
    ROk n
      {| rbuf := {| data := data (rbuf st) ++ takeN n (arriving (rsk st));
                    cap := cap (rbuf st) |};
         rsk := {| arriving := dropN n (arriving (rsk st)); ending := ending (rsk st);
                   chunks := tl (chunks (rsk st)); grants := grants (rsk st); reuse := reuse (rsk st) |} |}
  end.

(** wait_for_data (mqtt_bytes_stream.rs:241-265). Fuel: every iteration either stops or
    takes a byte out of [arriving]. *)
Fixpoint wait_for_data_loop (fuel : nat) (n : N) (st : rstream) : rout unit :=
  match fuel with
  | O => RNoFuel
  | S fuel' =>
    if lenN (data (rbuf st)) <? n then
      match read_buf st with
      | ROk read_bytes_num st' =>
        if read_bytes_num =? 0 then
          match data (rbuf st') with
          | [] => RErr ErrClosed
          | _ :: _ => RErr ErrInterrupted
          end
        else wait_for_data_loop fuel' n st'
      | RErr e => RErr e
      | RPanic => RPanic
      | RWait => RWait
      | RHung => RHung
      | RNoFuel => RNoFuel
      end
    else ROk tt st
  end.

Definition wait_for_data (n : N) (st : rstream) : rout unit :=
  wait_for_data_loop (S (length (arriving (rsk st)))) n st.

Definition set_rbuf (b : BytesMut) (st : rstream) : rstream := {| rbuf := b; rsk := rsk st |}.

(** get_u8 (mqtt_bytes_stream.rs:186-190) *)
Definition stream_get_u8 (st : rstream) : rout byte :=
  match wait_for_data 1 st with
  | ROk _ st' =>
    match data (rbuf st') with
    | b :: _ => ROk b (set_rbuf (advance (reuse (rsk st')) 1 (rbuf st')) st')
    | [] => RPanic           (* Buf::get_u8 panics on an empty buffer *)
    end
  | RErr e => RErr e
  | RPanic => RPanic
  | RWait => RWait
  | RHung => RHung
  | RNoFuel => RNoFuel
  end.

(** get_u16 (mqtt_bytes_stream.rs:192-196), big endian *)
Definition stream_get_u16 (st : rstream) : rout N :=
  match wait_for_data 2 st with
  | ROk _ st' =>
    match data (rbuf st') with
    | b1 :: b0 :: _ => ROk (b2n b1 * 256 + b2n b0) (set_rbuf (advance (reuse (rsk st')) 2 (rbuf st')) st')
    | _ => RPanic
    end
  | RErr e => RErr e
  | RPanic => RPanic
  | RWait => RWait
  | RHung => RHung
  | RNoFuel => RNoFuel
  end.

(** One iteration of the loop of get_bytes (mqtt_bytes_stream.rs:223-236). *)
Inductive gb_result :=
| GbStop (r : rout bytes)
| GbNext (acc : bytes) (remaining_length : N) (st : rstream).

Definition gb_step (acc : bytes) (remaining_length : N) (st : rstream) : gb_result :=
  if 0 <? remaining_length then
    let wait_for_bytes :=
      if cap (rbuf st) <? remaining_length then cap (rbuf st) else remaining_length in
    match wait_for_data wait_for_bytes st with
    | ROk _ st' =>
      GbNext (acc ++ takeN wait_for_bytes (data (rbuf st')))
             (remaining_length - wait_for_bytes)
             (set_rbuf (consume wait_for_bytes (rbuf st')) st')
    | RErr e => GbStop (RErr e)
    | RPanic => GbStop RPanic
    | RWait => GbStop RWait
    | RHung => GbStop RHung
    | RNoFuel => GbStop RNoFuel
    end
  else GbStop (ROk acc st).

(** The loop run for at most [fuel] iterations; running out means it has not stopped. *)
Fixpoint gb_loop (fuel : nat) (acc : bytes) (remaining_length : N) (st : rstream) : rout bytes :=
  match fuel with
  | O => RHung
  | S fuel' =>
    match gb_step acc remaining_length st with
    | GbStop r => r
    | GbNext acc' remaining' st' => gb_loop fuel' acc' remaining' st'
    end
  end.

(** isize::MAX on a 64-bit target: larger allocations panic with "capacity overflow" *)
Definition isize_max : N := 2 ^ 63 - 1.

(** get_bytes (mqtt_bytes_stream.rs:218-239). [BytesMut::with_capacity(size)], line 219, panics above
    isize::MAX. [size + 1] iterations are enough if the loop stops at all (theorem
    [get_bytes_hung_iff_diverges]). Exhaustion of memory is not modelled. *)
Definition stream_get_bytes (size : N) (st : rstream) : rout bytes :=
  if isize_max <? size then RPanic
  else gb_loop (S (N.to_nat size)) [] size st.

(** Running a reader program on the stream. *)
Fixpoint run {A} (m : rd A) (st : rstream) : rout A :=
  match m with
  | Ret a => ROk a st
  | Err e => RErr e
  | Boom => RPanic
  | NoFuel => RNoFuel
  | GetU8 k =>
    match stream_get_u8 st with
    | ROk b st' => run (k b) st'
    | RErr e => RErr e | RPanic => RPanic | RWait => RWait | RHung => RHung | RNoFuel => RNoFuel
    end
  | GetU16 k =>
    match stream_get_u16 st with
    | ROk n st' => run (k n) st'
    | RErr e => RErr e | RPanic => RPanic | RWait => RWait | RHung => RHung | RNoFuel => RNoFuel
    end
  | GetBytes size k =>
    match stream_get_bytes size st with
    | ROk bs st' => run (k bs) st'
    | RErr e => RErr e | RPanic => RPanic | RWait => RWait | RHung => RHung | RNoFuel => RNoFuel
    end
  end.

(** All bytes still to be consumed, buffered or not yet arrived. *)
Definition pending (st : rstream) : bytes := data (rbuf st) ++ arriving (rsk st).

(** read_packet on a stream (packet_decoder.rs:70). The loop fuel is the number of bytes that
    can still be read plus one; it never runs out (theorem [stream_read_packet_fuel]). *)
Definition stream_read_packet (dbg : bool) (st : rstream) : rout ControlPacket :=
  run (read_packet (S (length (pending st))) dbg) st.

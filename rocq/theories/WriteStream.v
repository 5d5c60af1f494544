(** src/mqtt/transport/mqtt_bytes_stream.rs, writing side (MqttBytesWriteStream, lines 268-331;
    the writing methods of MqttBytesStream, lines 120-176, are the same code), and
    write_packet of packet_encoder.rs. *)
From Verif Require Import Base Packets Encoder ReadStream.
Open Scope N_scope.

(** What the socket does with one write call. *)
Inductive wact :=
| WAccept (n : N)   (* takes at most max(1,n) bytes *)
| WFail             (* returns an error *)
| WBlock.           (* never becomes writable again *)

(** The environment: bytes accepted so far, reactions to the next writes (when exhausted, every
    write is accepted whole), capacity granted by successive reallocations beyond the request, version of
    the bytes library (see [advance]). *)
Record wsock := { accepted : bytes; wacts : list wact; wgrants : list N; wreuse : bool }.

(** MqttBytesWriteStream (mqtt_bytes_stream.rs:13-16) *)
Record wstream := { wbuf : BytesMut; wsk : wsock }.

Inductive wout :=
| WOk (st : wstream)
| WErr (st : wstream)    (* Err(_) returned; the stream lives on *)
| WWait (st : wstream)   (* blocked forever, in this state *)
| WHung                  (* spins forever *)
| WPanic.

(** MqttBytesWriteStream::new (mqtt_bytes_stream.rs:269-274) *)
Definition wstream_new (buffer_size : N) (s : wsock) : wstream :=
  {| wbuf := with_capacity buffer_size; wsk := s |}.

(** [write_buf(&mut self.write_buffer).await] (tokio): nothing to do on an empty buffer, otherwise
    one socket write of a nonempty prefix, removed from the buffer with [advance]. *)
Definition write_buf (st : wstream) : wout :=
  match data (wbuf st) with
  | [] => WOk st
  | _ :: _ =>
    let step n rest :=
      WOk {| wbuf := advance (wreuse (wsk st)) n (wbuf st);
             wsk := {| accepted := accepted (wsk st) ++ takeN n (data (wbuf st));
                       wacts := rest; wgrants := wgrants (wsk st); wreuse := wreuse (wsk st) |} |} in
    match wacts (wsk st) with
    | [] => step (lenN (data (wbuf st))) []
    | WAccept n :: rest => step (N.min (N.max 1 n) (lenN (data (wbuf st)))) rest
    | WFail :: rest =>
      WErr {| wbuf := wbuf st;
              wsk := {| accepted := accepted (wsk st); wacts := rest;
                        wgrants := wgrants (wsk st); wreuse := wreuse (wsk st) |} |}
    | WBlock :: _ => WWait st
    end
  end.

(** BytesMut::put_u8/put_u16/put: [extend_from_slice], which reserves room if needed. *)
Definition append (bs : bytes) (st : wstream) : wstream :=
  let b := wbuf st in
  let s := wsk st in
  if cap b - lenN (data b) <? lenN bs then
    {| wbuf := {| data := data b ++ bs;
                  cap := lenN (data b) + lenN bs + hd 0 (wgrants s) |};
       wsk := {| accepted := accepted s; wacts := wacts s; wgrants := tl (wgrants s); wreuse := wreuse s |} |}
  else
    {| wbuf := {| data := data b ++ bs; cap := cap b |}; wsk := s |}.

(** write_buffer_if_too_small (mqtt_bytes_stream.rs:324-330) *)
Definition write_buffer_if_too_small (size : N) (st : wstream) : wout :=
  if cap (wbuf st) <=? lenN (data (wbuf st)) + size then write_buf st else WOk st.

(** One iteration of the loop of put_bytes (mqtt_bytes_stream.rs:300-313);
    [bs] is what is left of the argument, of size [remaining_size]. *)
Inductive pb_result :=
| PbStop (r : wout)
| PbNext (bs : bytes) (st : wstream).

Definition pb_step (bs : bytes) (st : wstream) : pb_result :=
  let remaining_size := lenN bs in
  if 0 <? remaining_size then
    let bytes_to_write :=
      if cap (wbuf st) <? remaining_size then cap (wbuf st) else remaining_size in
    match write_buffer_if_too_small bytes_to_write st with
    | WOk st' => PbNext (dropN bytes_to_write bs) (append (takeN bytes_to_write bs) st')
    | r => PbStop r
    end
  else PbStop (WOk st).

Fixpoint pb_loop (fuel : nat) (bs : bytes) (st : wstream) : wout :=
  match fuel with
  | O => WHung
  | S fuel' =>
    match pb_step bs st with
    | PbStop r => r
    | PbNext bs' st' => pb_loop fuel' bs' st'
    end
  end.

(** put_u8, put_u16, put_bytes (mqtt_bytes_stream.rs:276-316); [put_bytes] runs its loop for one
    iteration per byte and one more, enough if it stops at all. *)
Definition run_put (c : put) (st : wstream) : wout :=
  match c with
  | PutU8 _ =>
    match write_buffer_if_too_small 1 st with
    | WOk st' => WOk (append (put_bytes_of c) st')
    | r => r
    end
  | PutU16 _ =>
    match write_buffer_if_too_small 2 st with
    | WOk st' => WOk (append (put_bytes_of c) st')
    | r => r
    end
  | PutBytes bs => pb_loop (S (length bs)) bs st
  end.

Fixpoint run_puts (cs : list put) (st : wstream) : wout :=
  match cs with
  | [] => WOk st
  | c :: cs' => match run_put c st with WOk st' => run_puts cs' st' | r => r end
  end.

(** finish_packet (mqtt_bytes_stream.rs:318-322): a single write_buf *)
Definition finish_packet (st : wstream) : wout := write_buf st.

(** write_packet (packet_encoder.rs:50-70) *)
Definition write_packet (p : ControlPacket) (st : wstream) : wout :=
  match packet_puts p with
  | Some cs => match run_puts cs st with WOk st' => finish_packet st' | r => r end
  | None => WPanic
  end.

(** Packets in sequence, as the write loop writes them (listener.rs:137-146): an error is logged
    and the loop goes on. *)
Fixpoint write_all (ps : list ControlPacket) (st : wstream) : wout :=
  match ps with
  | [] => WOk st
  | p :: ps' =>
    match write_packet p st with
    | WOk st' | WErr st' => write_all ps' st'
    | r => r
    end
  end.

(** listener.rs:74 *)
Definition connection_wstream (s : wsock) : wstream := wstream_new 4096 s.

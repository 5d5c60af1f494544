(** src/mqtt/transport/mqtt_bytes_stream.rs:7-11, 23-176: the stream that reads and writes one TcpStream.  The broker uses the
    two halves (ReadStream.v, WriteStream.v); this one is only offered by the library.  Here the state of the stream after an
    error, and while a call waits, is kept: the caller may go on, and may give up a call that waits. *)
From Verif Require Import Base Utf8 Packets Decoder Encoder ReadStream WriteStream.
Open Scope N_scope.

(** mqtt_bytes_stream.rs:7-11.  The TcpStream is its two directions, each doing what it likes. *)
Record dstream := { read_buffer : BytesMut; write_buffer : BytesMut; from_peer : rsock; to_peer : wsock }.

(** mqtt_bytes_stream.rs:24-34 *)
Definition dstream_new (read_buffer_size write_buffer_size : N) (r : rsock) (w : wsock) : dstream :=
  {| read_buffer := with_capacity read_buffer_size; write_buffer := with_capacity write_buffer_size; from_peer := r; to_peer := w |}.

Definition set_read_buffer (b : BytesMut) (st : dstream) : dstream :=
  {| read_buffer := b; write_buffer := write_buffer st; from_peer := from_peer st; to_peer := to_peer st |}.
Definition set_write_buffer (b : BytesMut) (st : dstream) : dstream :=
  {| read_buffer := read_buffer st; write_buffer := b; from_peer := from_peer st; to_peer := to_peer st |}.
Definition set_from_peer (r : rsock) (st : dstream) : dstream :=
  {| read_buffer := read_buffer st; write_buffer := write_buffer st; from_peer := r; to_peer := to_peer st |}.
Definition set_to_peer (w : wsock) (st : dstream) : dstream :=
  {| read_buffer := read_buffer st; write_buffer := write_buffer st; from_peer := from_peer st; to_peer := w |}.

(** Result of a call: value, error, waiting for the peer for ever (in this state), panic, spinning for ever. *)
Inductive dout (A : Type) : Type :=
| DOk (a : A) (st : dstream)
| DErr (e : err) (st : dstream)
| DWait (st : dstream)
| DPanic
| DHung
| DNoFuel.
Arguments DOk {A} a st.
Arguments DErr {A} e st.
Arguments DWait {A} st.
Arguments DPanic {A}.
Arguments DHung {A}.
Arguments DNoFuel {A}.

(** The operator [?] after [.await]. *)
Definition d_bind {A B} (o : dout A) (f : A -> dstream -> dout B) : dout B :=
  match o with
  | DOk a st => f a st
  | DErr e st => DErr e st
  | DWait st => DWait st
  | DPanic => DPanic
  | DHung => DHung
  | DNoFuel => DNoFuel
  end.

(** ** Reading *)

(** tokio's read_buf; see ReadStream.v [read_buf] and [grow_if_full]. *)
Definition d_read_buf (st : dstream) : dout N :=
  let full := cap (read_buffer st) =? lenN (data (read_buffer st)) in
  let buf := if full then {| data := data (read_buffer st); cap := lenN (data (read_buffer st)) + 64 + hd 0 (grants (from_peer st)) |}
             else read_buffer st in
  let sock := if full then {| arriving := arriving (from_peer st); ending := ending (from_peer st); chunks := chunks (from_peer st);
                              grants := tl (grants (from_peer st)); reuse := reuse (from_peer st) |}
              else from_peer st in
  let st := set_from_peer sock (set_read_buffer buf st) in
  match arriving sock with
  | [] => match ending sock with PeerOpen => DWait st | PeerEof => DOk 0 st | PeerError => DErr ErrIo st end
  | _ :: _ =>
    let spare := cap buf - lenN (data buf) in
    let most := match chunks sock with [] => spare | c :: _ => N.max 1 c end in
    let n := N.min most (N.min spare (lenN (arriving sock))) in
    DOk n (set_from_peer {| arriving := dropN n (arriving sock); ending := ending sock; chunks := tl (chunks sock);
                            grants := grants sock; reuse := reuse sock |}
             (set_read_buffer {| data := data buf ++ takeN n (arriving sock); cap := cap buf |} st))
  end.

(** wait_for_data (mqtt_bytes_stream.rs:93-117); fuel as in ReadStream.v *)
Fixpoint d_wait_loop (fuel : nat) (n : N) (st : dstream) : dout unit :=
  match fuel with
  | O => DNoFuel
  | S fuel' =>
    if lenN (data (read_buffer st)) <? n then
      d_bind (d_read_buf st) (fun read_bytes_num st =>
        if read_bytes_num =? 0 then
          match data (read_buffer st) with [] => DErr ErrClosed st | _ :: _ => DErr ErrInterrupted st end
        else d_wait_loop fuel' n st)
    else DOk tt st
  end.

Definition d_wait_for_data (n : N) (st : dstream) : dout unit := d_wait_loop (S (length (arriving (from_peer st)))) n st.

(** get_u8 (mqtt_bytes_stream.rs:38-42) *)
Definition d_get_u8 (st : dstream) : dout byte :=
  d_bind (d_wait_for_data 1 st) (fun _ st =>
    match data (read_buffer st) with
    | b :: _ => DOk b (set_read_buffer (advance (reuse (from_peer st)) 1 (read_buffer st)) st)
    | [] => DPanic
    end).

(** get_u16 (mqtt_bytes_stream.rs:44-48) *)
Definition d_get_u16 (st : dstream) : dout N :=
  d_bind (d_wait_for_data 2 st) (fun _ st =>
    match data (read_buffer st) with
    | b1 :: b0 :: _ => DOk (b2n b1 * 256 + b2n b0) (set_read_buffer (advance (reuse (from_peer st)) 2 (read_buffer st)) st)
    | _ => DPanic
    end).

(** The loop of get_bytes (mqtt_bytes_stream.rs:75-88) *)
Fixpoint d_gb_loop (fuel : nat) (acc : bytes) (remaining_length : N) (st : dstream) : dout bytes :=
  match fuel with
  | O => DHung
  | S fuel' =>
    if 0 <? remaining_length then
      let wait_for_bytes := if cap (read_buffer st) <? remaining_length then cap (read_buffer st) else remaining_length in
      d_bind (d_wait_for_data wait_for_bytes st) (fun _ st =>
        d_gb_loop fuel' (acc ++ takeN wait_for_bytes (data (read_buffer st))) (remaining_length - wait_for_bytes)
          (set_read_buffer (consume wait_for_bytes (read_buffer st)) st))
    else DOk acc st
  end.

(** get_bytes (mqtt_bytes_stream.rs:70-91) *)
Definition d_get_bytes (size : N) (st : dstream) : dout bytes :=
  if isize_max <? size then DPanic else d_gb_loop (S (N.to_nat size)) [] size st.

(** get_string (mqtt_bytes_stream.rs:50-68) *)
Definition d_get_string (st : dstream) : dout bytes :=
  d_bind (d_get_u16 st) (fun string_size st =>
    d_bind (d_get_bytes string_size st) (fun str_buf st =>
      match from_utf8 str_buf with None => DOk str_buf st | Some valid_up_to => DErr (ErrUtf8 (valid_up_to + 1)) st end)).

(** ** Writing *)

(** tokio's write_buf; see WriteStream.v [write_buf]. *)
Definition d_write_buf (st : dstream) : dout unit :=
  match data (write_buffer st) with
  | [] => DOk tt st
  | _ :: _ =>
    let w := to_peer st in
    let step n rest :=
      DOk tt (set_to_peer {| accepted := accepted w ++ takeN n (data (write_buffer st)); wacts := rest; wgrants := wgrants w; wreuse := wreuse w |}
                (set_write_buffer (advance (wreuse w) n (write_buffer st)) st)) in
    match wacts w with
    | [] => step (lenN (data (write_buffer st))) []
    | WAccept n :: rest => step (N.min (N.max 1 n) (lenN (data (write_buffer st)))) rest
    | WFail :: rest => DErr ErrIo (set_to_peer {| accepted := accepted w; wacts := rest; wgrants := wgrants w; wreuse := wreuse w |} st)
    | WBlock :: _ => DWait st
    end
  end.

(** BytesMut::put; see WriteStream.v [append]. *)
Definition d_append (bs : bytes) (st : dstream) : dstream :=
  let b := write_buffer st in
  let w := to_peer st in
  if cap b - lenN (data b) <? lenN bs then
    set_to_peer {| accepted := accepted w; wacts := wacts w; wgrants := tl (wgrants w); wreuse := wreuse w |}
      (set_write_buffer {| data := data b ++ bs; cap := lenN (data b) + lenN bs + hd 0 (wgrants w) |} st)
  else set_write_buffer {| data := data b ++ bs; cap := cap b |} st.

(** write_buffer_if_too_small (mqtt_bytes_stream.rs:169-175) *)
Definition d_write_if_too_small (size : N) (st : dstream) : dout unit :=
  if cap (write_buffer st) <=? lenN (data (write_buffer st)) + size then d_write_buf st else DOk tt st.

(** put_u8, put_u16 (mqtt_bytes_stream.rs:121-133) *)
Definition d_put_u8 (n : N) (st : dstream) : dout unit :=
  d_bind (d_write_if_too_small 1 st) (fun _ st => DOk tt (d_append [n2b n] st)).
Definition d_put_u16 (n : N) (st : dstream) : dout unit :=
  d_bind (d_write_if_too_small 2 st) (fun _ st => DOk tt (d_append [n2b (n / 256); n2b n] st)).

(** put_bytes (mqtt_bytes_stream.rs:142-161) *)
Fixpoint d_pb_loop (fuel : nat) (bs : bytes) (st : dstream) : dout unit :=
  match fuel with
  | O => DHung
  | S fuel' =>
    if 0 <? lenN bs then
      let bytes_to_write := if cap (write_buffer st) <? lenN bs then cap (write_buffer st) else lenN bs in
      d_bind (d_write_if_too_small bytes_to_write st) (fun _ st =>
        d_pb_loop fuel' (dropN bytes_to_write bs) (d_append (takeN bytes_to_write bs) st))
    else DOk tt st
  end.

Definition d_put_bytes (bs : bytes) (st : dstream) : dout unit := d_pb_loop (S (length bs)) bs st.

(** put_string (mqtt_bytes_stream.rs:135-140) *)
Definition d_put_string (s : bytes) (st : dstream) : dout unit :=
  d_bind (d_put_u16 (lenN s mod 2 ^ 16) st) (fun _ st => d_bind (d_put_bytes s st) (fun _ st => DOk tt st)).

(** finish_packet (mqtt_bytes_stream.rs:163-167) *)
Definition d_finish_packet (st : dstream) : dout unit := d_bind (d_write_buf st) (fun _ st => DOk tt st).

(** ** Calls, one after the other *)

Inductive read_call := CGetU8 | CGetU16 | CGetString | CGetBytes (n : N).
Inductive write_call := CPutU8 (n : N) | CPutU16 (n : N) | CPutString (s : bytes) | CPutBytes (bs : bytes) | CFinish.
Inductive call := ReadCall (c : read_call) | WriteCall (c : write_call).

Inductive value := VByte (b : byte) | VNumber (n : N) | VBytes (bs : bytes) | VNone.

Definition d_map {A B} (f : A -> B) (o : dout A) : dout B := d_bind o (fun a st => DOk (f a) st).

Definition d_read (c : read_call) (st : dstream) : dout value :=
  match c with
  | CGetU8 => d_map VByte (d_get_u8 st)
  | CGetU16 => d_map VNumber (d_get_u16 st)
  | CGetString => d_map VBytes (d_get_string st)
  | CGetBytes n => d_map VBytes (d_get_bytes n st)
  end.

Definition d_write (c : write_call) (st : dstream) : dout value :=
  d_map (fun _ => VNone)
    match c with
    | CPutU8 n => d_put_u8 n st
    | CPutU16 n => d_put_u16 n st
    | CPutString s => d_put_string s st
    | CPutBytes bs => d_put_bytes bs st
    | CFinish => d_finish_packet st
    end.

Definition d_call (c : call) (st : dstream) : dout value :=
  match c with ReadCall c => d_read c st | WriteCall c => d_write c st end.

(** The caller goes on after an error and after giving up a call that waits; it cannot after a panic or while a call spins.
    What each call gave: a value, an error, or nothing because it was given up. *)
Inductive given := Gave (v : value) | Failed (e : err) | GivenUp.

Fixpoint d_calls (cs : list call) (st : dstream) : option (list given * dstream) :=
  match cs with
  | [] => Some ([], st)
  | c :: cs' =>
    let on g st := match d_calls cs' st with Some (gs, st') => Some (g :: gs, st') | None => None end in
    match d_call c st with
    | DOk v st => on (Gave v) st
    | DErr e st => on (Failed e) st
    | DWait st => on GivenUp st
    | _ => None
    end
  end.

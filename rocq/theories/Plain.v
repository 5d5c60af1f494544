(** The meaning of a reader program on a byte sequence that is entirely available:
    the buffer of mqtt_bytes_stream.rs is left out. [ReadStream_facts.v] relates it to the
    buffered stream. *)
From Verif Require Import Base Packets Decoder ReadStream.
Open Scope N_scope.

Inductive pres (A : Type) : Type :=
| POk (a : A) (rest : bytes)   (* value, and the bytes not consumed *)
| PErr (e : err)
| PPanic
| PMore (left : bytes)         (* needs more bytes than [left], the unconsumed ones *)
| PNoFuel.
Arguments POk {A} a rest.
Arguments PErr {A} e.
Arguments PPanic {A}.
Arguments PMore {A} left.
Arguments PNoFuel {A}.

Fixpoint plain {A} (m : rd A) (bs : bytes) : pres A :=
  match m with
  | Ret a => POk a bs
  | Err e => PErr e
  | Boom => PPanic
  | NoFuel => PNoFuel
  | GetU8 k =>
    match bs with
    | b :: r => plain (k b) r
    | [] => PMore bs
    end
  | GetU16 k =>
    match bs with
    | b1 :: b0 :: r => plain (k (b2n b1 * 256 + b2n b0)) r
    | _ => PMore bs
    end
  | GetBytes size k =>
    if isize_max <? size then PPanic
    else if lenN bs <? size then PMore bs
    else plain (k (takeN size bs)) (dropN size bs)
  end.

(** read_packet (packet_decoder.rs:70) on the bytes [bs]. *)
Definition decode (dbg : bool) (bs : bytes) : pres ControlPacket :=
  plain (read_packet (S (length bs)) dbg) bs.

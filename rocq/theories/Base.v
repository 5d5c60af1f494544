(** Basic vocabulary shared by the model: bytes, errors, the reader monad. *)
From Coq Require Export List NArith ZArith Lia Bool Arith.
From Coq Require Export ZifyBool ZifyNat ZifyN.
From Coq Require Export Init.Byte.
From Coq Require Strings.Byte Strings.String.
Export Coq.Strings.String.StringSyntax.
Delimit Scope string_scope with string.
Export ListNotations.

(** A Rust [u8]. *)
Notation byte := Coq.Init.Byte.byte.

(** A Rust [String]/[&str]/[BytesMut] content: its bytes. *)
Notation bytes := (list byte).

(** [b as u64] and friends: value of a byte. *)
Definition b2n (b : byte) : N := Coq.Strings.Byte.to_N b.

(** [n as u8]: truncating cast to a byte. *)
Definition n2b (n : N) : byte :=
  match Coq.Strings.Byte.of_N (n mod 256) with Some b => b | None => x00 end.

(** Literal text as bytes, for examples: [str "a/b"]. *)
Definition str (s : String.string) : bytes := String.list_byte_of_string s.
Arguments str s%string.

Definition byte_eqb (a b : byte) : bool := Coq.Strings.Byte.eqb a b.

(** [==] on strings: src uses it for client ids, topics and segments. *)
Fixpoint bytes_eqb (a b : bytes) : bool :=
  match a, b with
  | [], [] => true
  | x :: a', y :: b' => byte_eqb x y && bytes_eqb a' b'
  | _, _ => false
  end.

(** The [std::io::Error] values the transport layer produces; each constructor is
    one construction site of the source. *)
Inductive err :=
| ErrClosed            (* mqtt_bytes_stream.rs:102-105, 250-253: ConnectionReset, nothing buffered *)
| ErrInterrupted       (* mqtt_bytes_stream.rs:108-111, 256-259: ConnectionReset, bytes buffered *)
| ErrIo                (* mqtt_bytes_stream.rs:243 [?]: any error returned by the socket *)
| ErrUtf8 (pos : N)    (* mqtt_bytes_stream.rs:205-213: InvalidData, position of the error *)
| ErrLength            (* packet_decoder.rs:55-58: InvalidData *)
| ErrHeader            (* packet_decoder.rs:312-315: InvalidData *)
| ErrPayload           (* packet_decoder.rs:242-245, 278-281: InvalidData *)
| ErrQoS.              (* packet_decoder.rs:253-256: InvalidData *)

(** [e.kind() == ErrorKind::InvalidData] *)
Definition is_invalid_data (e : err) : bool :=
  match e with
  | ErrUtf8 _ | ErrLength | ErrHeader | ErrPayload | ErrQoS => true
  | ErrClosed | ErrInterrupted | ErrIo => false
  end.

(** An asynchronous reader, as the tree of calls it makes on [MqttBytesReadStream]
    (get_u8, get_u16, get_bytes: mqtt_bytes_stream.rs:186-239).
    [Boom] is a panic; [NoFuel] only arises if a loop's explicit fuel runs out,
    which the theorems exclude. *)
Inductive rd (A : Type) : Type :=
| Ret (a : A)
| Err (e : err)
| Boom
| NoFuel
| GetU8 (k : byte -> rd A)
| GetU16 (k : N -> rd A)
| GetBytes (size : N) (k : bytes -> rd A).
Arguments Ret {A} a.
Arguments Err {A} e.
Arguments Boom {A}.
Arguments NoFuel {A}.
Arguments GetU8 {A} k.
Arguments GetU16 {A} k.
Arguments GetBytes {A} size k.

(** [.await?] sequencing. *)
Fixpoint bind {A B} (m : rd A) (f : A -> rd B) : rd B :=
  match m with
  | Ret a => f a
  | Err e => Err e
  | Boom => Boom
  | NoFuel => NoFuel
  | GetU8 k => GetU8 (fun b => bind (k b) f)
  | GetU16 k => GetU16 (fun n => bind (k n) f)
  | GetBytes size k => GetBytes size (fun bs => bind (k bs) f)
  end.

Declare Scope rd_scope.
Delimit Scope rd_scope with rd.
Notation "x <- m ;; k" := (bind m (fun x => k))
  (at level 61, m at next level, right associativity) : rd_scope.
Open Scope rd_scope.

Definition get_u8 : rd byte := GetU8 Ret.
Definition get_u16 : rd N := GetU16 Ret.
Definition get_bytes (size : N) : rd bytes := GetBytes size Ret.

Definition lenN {A} (l : list A) : N := N.of_nat (length l).
Definition takeN {A} (n : N) (l : list A) : list A := firstn (N.to_nat n) l.
Definition dropN {A} (n : N) (l : list A) : list A := skipn (N.to_nat n) l.

(** Session::is_keep_alive_expired (src/broker/session/session_entity.rs:52-61).

    [f32] arithmetic is IEEE 754 binary32 with rounding to nearest even, as defined by the standard
    library's SpecFloat (precision 24, largest exponent 128). Instants are numbers of nanoseconds;
    [last] is the latest instant chrono can represent (adding beyond it panics). *)
From Coq Require Import Floats.SpecFloat.
From Verif Require Import Base Messaging.
Open Scope Z_scope.

Definition f32_prec : Z := 24.
Definition f32_emax : Z := 128.

(** [u16 as f32] *)
Definition f32_of_u16 (n : N) : spec_float := binary_normalize f32_prec f32_emax (Z.of_N n) 0 false.

(** The literal [1.5] *)
Definition f32_one_and_a_half : spec_float := S754_finite false 12582912 (-23).

(** [f32 as i64]: towards zero, saturating, NaN is 0 *)
Definition i64_of_f32 (x : spec_float) : Z :=
  match x with
  | S754_zero _ => 0
  | S754_nan => 0
  | S754_infinity true => - 2 ^ 63
  | S754_infinity false => 2 ^ 63 - 1
  | S754_finite s m e =>
    let a := if 0 <=? e then Z.pos m * 2 ^ e else Z.pos m / 2 ^ (- e) in
    let v := if s then - a else a in
    Z.max (- 2 ^ 63) (Z.min v (2 ^ 63 - 1))
  end.

(** line 57 *)
Definition leeway_seconds (keep_alive_seconds : N) : Z :=
  i64_of_f32 (SFmul f32_prec f32_emax (f32_of_u16 keep_alive_seconds) f32_one_and_a_half).

(** lines 52-61; [None] is the panic of [DateTime + Duration] on overflow *)
Definition is_keep_alive_expired (last : Z) (s : Session) (now : Z) : option bool :=
  if (s_keep_alive_seconds s =? 0)%N then Some false
  else
    let expires_at := s_last_activity s + leeway_seconds (s_keep_alive_seconds s) * 1000000000 in
    if last <? expires_at then None else Some (expires_at <=? now).

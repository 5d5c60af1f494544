(** [std::str::from_utf8] as called at mqtt_bytes_stream.rs:57 and :205.
    The body follows core::str::validations::run_utf8_validation
    (the ASCII fast path, which skips blocks of ASCII bytes, is omitted:
    it does not change the result). *)
From Verif Require Import Base.
Open Scope N_scope.

Definition in_range (lo hi n : N) : bool := (lo <=? n) && (n <=? hi).

(** A continuation byte: [next as i8 >= -64] is the error test, i.e. 0x80..=0xBF is good. *)
Definition is_cont (n : N) : bool := in_range 0x80 0xBF n.

(** utf8_char_width table. *)
Definition utf8_char_width (n : N) : N :=
  if n <=? 0x7F then 1
  else if in_range 0xC2 0xDF n then 2
  else if in_range 0xE0 0xEF n then 3
  else if in_range 0xF0 0xF4 n then 4
  else 0.

(** The (first, second) byte patterns for three-byte sequences. *)
Definition ok3 (first second : N) : bool :=
  ((first =? 0xE0) && in_range 0xA0 0xBF second)
  || (in_range 0xE1 0xEC first && in_range 0x80 0xBF second)
  || ((first =? 0xED) && in_range 0x80 0x9F second)
  || (in_range 0xEE 0xEF first && in_range 0x80 0xBF second).

(** The (first, second) byte patterns for four-byte sequences. *)
Definition ok4 (first second : N) : bool :=
  ((first =? 0xF0) && in_range 0x90 0xBF second)
  || (in_range 0xF1 0xF3 first && in_range 0x80 0xBF second)
  || ((first =? 0xF4) && in_range 0x80 0x8F second).

(** Scan from offset [idx]; [None] = valid, [Some i] = error with valid_up_to() = i. *)
Fixpoint utf8_scan (idx : N) (v : bytes) : option N :=
  match v with
  | [] => None
  | b0 :: r0 =>
    let w := utf8_char_width (b2n b0) in
    if w =? 1 then utf8_scan (idx + 1) r0
    else if w =? 2 then
      match r0 with
      | b1 :: r1 => if is_cont (b2n b1) then utf8_scan (idx + 2) r1 else Some idx
      | [] => Some idx
      end
    else if w =? 3 then
      match r0 with
      | b1 :: r1 =>
        if ok3 (b2n b0) (b2n b1) then
          match r1 with
          | b2 :: r2 => if is_cont (b2n b2) then utf8_scan (idx + 3) r2 else Some idx
          | [] => Some idx
          end
        else Some idx
      | [] => Some idx
      end
    else if w =? 4 then
      match r0 with
      | b1 :: r1 =>
        if ok4 (b2n b0) (b2n b1) then
          match r1 with
          | b2 :: r2 =>
            if is_cont (b2n b2) then
              match r2 with
              | b3 :: r3 => if is_cont (b2n b3) then utf8_scan (idx + 4) r3 else Some idx
              | [] => Some idx
              end
            else Some idx
          | [] => Some idx
          end
        else Some idx
      | [] => Some idx
      end
    else Some idx
  end.

(** [from_utf8(v).map_err(|e| e.valid_up_to())] *)
Definition from_utf8 (v : bytes) : option N := utf8_scan 0 v.

Definition utf8_ok (v : bytes) : bool :=
  match from_utf8 v with None => true | Some _ => false end.

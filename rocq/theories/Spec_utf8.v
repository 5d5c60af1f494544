(** Specification: UTF-8 text (RFC 3629). *)
From Verif Require Import Base.
Open Scope N_scope.

(** Unicode scalar values: code points that are not surrogates. *)
Definition scalar (c : N) : Prop := c < 0xD800 \/ (0xE000 <= c /\ c < 0x110000).

(** UTF-8 encoding of one scalar value. *)
Definition enc (c : N) : bytes :=
  map n2b
    (if c <? 0x80 then [c]
     else if c <? 0x800 then [0xC0 + c / 64; 0x80 + c mod 64]
     else if c <? 0x10000 then [0xE0 + c / 4096; 0x80 + (c / 64) mod 64; 0x80 + c mod 64]
     else [0xF0 + c / 262144; 0x80 + (c / 4096) mod 64; 0x80 + (c / 64) mod 64; 0x80 + c mod 64]).

(** [s] is the UTF-8 encoding of some text. *)
Definition is_utf8 (s : bytes) : Prop := exists cs, Forall scalar cs /\ s = flat_map enc cs.

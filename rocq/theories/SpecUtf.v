(** Specification of UTF-8 and UTF-16 as encodings of Unicode scalar values
    (Unicode standard, section 3.9). *)
From Coq Require Import NArith List.
From Coq.Strings Require Import Byte.
From Verif Require Import Base.
Import ListNotations.
Open Scope N_scope.

(** A Unicode scalar value: a code point that is not a surrogate. *)
Definition scalar (c : N) : Prop := c < 0xd800 \/ 0xe000 <= c < 0x110000.

(** UTF-8 encoding of one scalar value. *)
Definition utf8_char (c : N) : list byte :=
  if c <? 0x80 then [nb c]
  else if c <? 0x800 then [nb (0xc0 + c / 64); nb (0x80 + c mod 64)]
  else if c <? 0x10000 then
    [nb (0xe0 + c / 4096); nb (0x80 + c / 64 mod 64); nb (0x80 + c mod 64)]
  else
    [nb (0xf0 + c / 262144); nb (0x80 + c / 4096 mod 64);
     nb (0x80 + c / 64 mod 64); nb (0x80 + c mod 64)].

Definition utf8_encode (cs : list N) : list byte := concat (map utf8_char cs).

(** The text [t] is valid UTF-8. *)
Definition is_utf8 (t : list byte) : Prop := exists cs, Forall scalar cs /\ t = utf8_encode cs.

(** UTF-16 encoding of one scalar value. *)
Definition utf16_char (c : N) : list N :=
  if c <? 0x10000 then [c]
  else [0xd800 + (c - 0x10000) / 1024; 0xdc00 + (c - 0x10000) mod 1024].

Definition utf16_encode (cs : list N) : list N := concat (map utf16_char cs).

(** Little-endian storage of 16-bit code units. *)
Definition units_le (us : list N) : list byte := concat (map (le_enc 2) us).

(** Models of the standard-library text conversions the code relies on:
    [std::str::from_utf8] and [String::from_utf16]. *)
From Coq Require Import NArith List Bool.
From Coq.Strings Require Import Byte.
From Verif Require Import Base.
Import ListNotations.
Open Scope N_scope.

Definition in_range (lo hi x : N) : bool := (lo <=? x) && (x <=? hi).
Definition cont (b : byte) : bool := in_range 0x80 0xbf (bn b).

(** Validity check of [core::str::from_utf8] (run_utf8_validation): the byte patterns of
    Unicode table 3-7.  Used at /repo/binary_reader/src/lib.rs:69 and
    /repo/clr_lite/src/metadata/strings_heap.rs:26. *)
Fixpoint utf8_valid (bs : list byte) : bool :=
  match bs with
  | [] => true
  | b0 :: r0 =>
      let x := bn b0 in
      if x <? 0x80 then utf8_valid r0
      else if in_range 0xc2 0xdf x then
        match r0 with
        | b1 :: r1 => cont b1 && utf8_valid r1
        | _ => false
        end
      else if in_range 0xe0 0xef x then
        match r0 with
        | b1 :: b2 :: r2 =>
            (if x =? 0xe0 then in_range 0xa0 0xbf (bn b1)
             else if x =? 0xed then in_range 0x80 0x9f (bn b1)
             else cont b1) && cont b2 && utf8_valid r2
        | _ => false
        end
      else if in_range 0xf0 0xf4 x then
        match r0 with
        | b1 :: b2 :: b3 :: r3 =>
            (if x =? 0xf0 then in_range 0x90 0xbf (bn b1)
             else if x =? 0xf4 then in_range 0x80 0x8f (bn b1)
             else cont b1) && cont b2 && cont b3 && utf8_valid r3
        | _ => false
        end
      else false
  end.

(** [String::from_utf16]: code units to Unicode scalar values; [None] on an unpaired
    surrogate.  Used at /repo/clr_lite/src/vm/internal_method/system_console.rs
    and in [RunResult]. *)
Fixpoint utf16_decode (us : list N) : option (list N) :=
  match us with
  | [] => Some []
  | u :: r =>
      if in_range 0xd800 0xdbff u then
        match r with
        | v :: r' =>
            if in_range 0xdc00 0xdfff v then
              match utf16_decode r' with
              | Some cs => Some (0x10000 + (u - 0xd800) * 0x400 + (v - 0xdc00) :: cs)
              | None => None
              end
            else None
        | [] => None
        end
      else if in_range 0xdc00 0xdfff u then None
      else match utf16_decode r with
           | Some cs => Some (u :: cs)
           | None => None
           end
  end.

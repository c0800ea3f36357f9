(** How statements talk about parsers: what it means that a piece of reading code decodes
    a given byte string, and that it is well behaved on every input. *)
From Coq Require Import NArith String List.
From Coq.Strings Require Import Byte.
From Verif Require Import Base BinaryReader.
Import ListNotations.
Open Scope N_scope.

(** Every Rust slice has at most [isize::MAX] bytes. *)
Definition slice_ok (d : list byte) : Prop := len d < 2 ^ 63.

(** [parses m bs a]: wherever the bytes [bs] occur in a buffer, running [m] with the
    cursor at their start returns [a] and leaves the cursor right after them. *)
Definition parses {A} (m : M reader A) (bs : list byte) (a : A) : Prop :=
  forall pre rest, slice_ok (pre ++ bs ++ rest) ->
    m (mkReader (pre ++ bs ++ rest) (len pre)) =
    Ok a (mkReader (pre ++ bs ++ rest) (len pre + len bs)).

(** [in_bounds r]: a legal buffer with the cursor inside it (or at its end). *)
Definition in_bounds (r : reader) : Prop := slice_ok (rdata r) /\ rpos r <= len (rdata r).

(** [total m]: from any legal position, [m] returns a value or an error (no panic, no
    undefined behaviour, no exhausted budget), leaves the buffer alone and the cursor
    inside the buffer and not before where it was. *)
Definition total {A} (m : M reader A) : Prop :=
  forall r, in_bounds r ->
    match m r with
    | Ok _ r' | Err _ r' =>
        rdata r' = rdata r /\ rpos r <= rpos r' /\ rpos r' <= len (rdata r)
    | _ => False
    end.

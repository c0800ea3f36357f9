(** Specification: numbers on the operand stack and in variables (ECMA-335 III.1.1.1, III.3.63, III.4.10). *)
From Coq Require Import NArith ZArith String List.
From Coq.Strings Require Import Byte.
From Verif Require Import Base Runtime Value.
Import ListNotations.
Open Scope Z_scope.

(** What is on the stack when [v] has been loaded: integers of up to 32 bits become the 32-bit integer of the same
    value (of the same bits, if they have 32 without a sign), longer ones the 64-bit integer of the same bits. *)
Inductive widened : value -> value -> Prop :=
| to_int t x y : (ibits t <= 32)%N -> - 2 ^ 31 <= y < 2 ^ 31 -> (y - x) mod 2 ^ 32 = 0 -> widened (VInt t x) (VInt I32 y)
| to_long t x y : (32 < ibits t)%N -> - 2 ^ 63 <= y < 2 ^ 63 -> (y - x) mod 2 ^ 64 = 0 -> widened (VInt t x) (VInt I64 y)
| single b : widened (VF32 b) (VF32 b)
| double b : widened (VF64 b) (VF64 b)
| reference o : widened (VObject o) (VObject o).

(** The integer types that are shorter than the numbers on the stack: their bits and least values. *)
Definition short_types : list (string * (Z * Z)) :=
  [("System.SByte"%string, (8, -128)); ("System.Byte"%string, (8, 0));
   ("System.Int16"%string, (16, -32768)); ("System.UInt16"%string, (16, 0));
   ("System.Boolean"%string, (8, 0)); ("System.Char"%string, (16, 0))].
(** A variable of type [n] holds [y] when the 32-bit number [x] has been stored in it: the lowest bits of it. *)
Definition narrowed (n : name) (x y : Z) : Prop :=
  exists s bits least, In (s, (bits, least)) short_types /\ n = bytes_of_string s /\
    least <= y < least + 2 ^ bits /\ (y - x) mod 2 ^ bits = 0.
(** [x] is a number of the type [n]. *)
Definition number_of (n : name) (x : Z) : Prop :=
  exists s bits least, In (s, (bits, least)) short_types /\ n = bytes_of_string s /\ least <= x < least + 2 ^ bits.

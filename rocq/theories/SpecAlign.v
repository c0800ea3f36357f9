(** Addresses: where in memory the code reads and writes numbers, and which addresses are aligned. *)
From Coq Require Import NArith ZArith String List Bool.
From Coq.Strings Require Import Byte.
From Verif Require Import Base Runtime Value Gc Interp SpecBytes SpecExec SpecRuntime SpecTypes SpecHeap SpecSafety.
Import ListNotations.
Open Scope N_scope.

(** A number of [n] bytes may only be accessed at a multiple of [n]. *)
Definition aligned (address n : N) : Prop := address mod n = 0.

(** The numbers in a block, by their distance from its start and their size: the fields of an object (of the
    number types), the elements of an array and the code units of a string.  The headers are packed structures
    and have no alignment. *)
Inductive number_in (ts : list type_info) : request -> N -> N -> Prop :=
| a_field t ti f v n k : nth_error ts t = Some ti -> In f (ti_fields ti) -> f_static f = false ->
    type_name_of v = Some n -> is_named ts (f_type f) n -> width_of v = Some k ->
    number_in ts (an_object t) (5 + f_offset f) k
| an_element t i length v n k : type_name_of v = Some n -> is_named ts t n -> width_of v = Some k -> i < length ->
    number_in ts (an_array t length) (17 + k * i) k
| a_unit text i : i < len text -> number_in ts (a_string text) (13 + 2 * i) 2.

(** All numbers in the block at [o] are aligned if the heap is at the address [base]. *)
Definition block_aligned (base : N) (ts : list type_info) (r : request) (o : obj) : Prop :=
  forall d k, number_in ts r d k -> aligned (base + o_off o + d) k.

(** At [a] in the code the interpreter reads an operand of [n] bytes, as a number of that size.  (It reads four
    bytes for the long forms of ldarg and starg, C48.) *)
Definition operand_at (code : list byte) (a n : N) : Prop :=
  exists ip op operand, In (op, n) operand_sizes /\ (op = [xfe; x09] \/ op = [xfe; x0b] -> n = 4) /\
    bytes_at code ip (op ++ operand) /\ len operand = n /\ a = ip + len op.

(** Code without loops and without recursion: which instruction comes after which one, which methods an
    instruction calls, and numbers that go down along both. *)
From Coq Require Import NArith ZArith String List Bool.
From Coq.Strings Require Import Byte.
From Verif Require Import Base Runtime Value Opcodes Gc Interp SpecBytes SpecExec SpecFrames SpecStack SpecSafety.
Import ListNotations.
Open Scope N_scope.

(** Going by the code alone, the instruction at address [ip] can be followed by the one at the address in
    question: the one behind it, unless it is an unconditional branch, or the target of a branch.  The
    interpreter reads four bytes for the operand of the long forms of ldarg and starg (C48). *)
Inductive comes_after (code : list byte) (ip : N) : N -> Prop :=
| the_next op n operand : In (op, n) operand_sizes -> (op = [xfe; x09] \/ op = [xfe; x0b] -> n = 4) ->
    op <> [x2b] -> op <> [x38] -> bytes_at code ip (op ++ operand) -> len operand = n ->
    comes_after code ip (ip + len op + n)
| the_target i n bs target : In ([i], n) branch_formats -> bytes_at code ip (i :: bs) -> len bs = n ->
    Z.of_N target = (Z.of_N ip + 1 + Z.of_N n + signed_number bs)%Z -> comes_after code ip target.

(** The addresses that the code can come to. *)
Inductive address (code : list byte) : N -> Prop :=
| at_start : address code 0
| at_next ip ip' : address code ip -> comes_after code ip ip' -> address code ip'.

(** The instruction at [ip] is a call or the creation of an object, of method [m]. *)
Definition calls_at (s : vm) (a : aref) (code : list byte) (ip : N) (m : method_info) : Prop :=
  exists i bs, (i = x28 \/ i = x73) /\ bytes_at code ip (i :: bs) /\ List.length bs = 4%nat /\
    denotes s a (Z.to_N (number bs)) m.

(** A set of methods that only call each other, with a number for each of their addresses that goes down from
    an instruction to those that come after it and to the start of the methods that it calls. *)
Record goes_down (s : vm) (T : method_info -> Prop) (steps : method_info -> N -> nat) : Prop := {
  gd_size : forall m b, T m -> mt_impl m = IIL b -> len (b_code b) < 2 ^ 63 /\
    exists ti, nth_error (c_types s) (mt_declaring m) = Some ti;
  gd_next : forall m b ip ip', T m -> mt_impl m = IIL b -> address (b_code b) ip -> comes_after (b_code b) ip ip' ->
    (steps m ip' < steps m ip)%nat;
  gd_call : forall m b ti ip m', T m -> mt_impl m = IIL b -> nth_error (c_types s) (mt_declaring m) = Some ti ->
    address (b_code b) ip -> calls_at s (ti_assembly ti) (b_code b) ip m' -> T m' /\ (steps m' 0%N < steps m ip)%nat }.

(** Code that only branches forward. *)
Definition forward (code : list byte) : Prop :=
  forall ip i n bs, address code ip -> In ([i], n) branch_formats -> bytes_at code ip (i :: bs) -> len bs = n ->
    (0 <= signed_number bs)%Z.

(** A set of methods that only branch forward and only call methods in the set that are lower in rank. *)
Record straight (s : vm) (T : method_info -> Prop) (rank : method_info -> nat) (size : nat) : Prop := {
  st_size : forall m b, T m -> mt_impl m = IIL b -> (List.length (b_code b) <= size)%nat /\ len (b_code b) < 2 ^ 63 /\
    exists ti, nth_error (c_types s) (mt_declaring m) = Some ti;
  st_forward : forall m b, T m -> mt_impl m = IIL b -> forward (b_code b);
  st_call : forall m b ti ip m', T m -> mt_impl m = IIL b -> nth_error (c_types s) (mt_declaring m) = Some ti ->
    address (b_code b) ip -> calls_at s (ti_assembly ti) (b_code b) ip m' -> T m' /\ (rank m' < rank m)%nat }.

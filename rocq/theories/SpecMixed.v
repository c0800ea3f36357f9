(** Specification for C85 and C86: references as operands, and operands of different integer types. *)
From Coq Require Import NArith ZArith List.
From Coq.Strings Require Import Byte.
From Verif Require Import Base Value SpecExec.
Import ListNotations.
Open Scope N_scope.

(** ** Equality (ECMA-335 III.1.5, table III.4; III.3.5, III.3.21) *)

(** The instructions that test two operands for equality and branch: opcode and size of the
    displacement. *)
Inductive equal_branch : byte -> nat -> Prop :=
| eb_beq : equal_branch x3b 4
| eb_beq_s : equal_branch x2e 1.

(** The instructions that compare two operands by order: those that leave a number, and those that
    branch. *)
Definition order_codes : list (list byte) := [[xfe; x02]; [xfe; x03]; [xfe; x04]; [xfe; x05]].
Inductive order_branch : byte -> nat -> Prop :=
| ob_bge : order_branch x3c 4 | ob_bge_s : order_branch x2f 1
| ob_bgt : order_branch x3d 4 | ob_bgt_s : order_branch x30 1
| ob_ble : order_branch x3e 4 | ob_ble_s : order_branch x31 1
| ob_blt : order_branch x3f 4 | ob_blt_s : order_branch x32 1.

(** ** Integers on the operand stack (ECMA-335 III.1.1.1)

    The operand stack has integers of 32 and of 64 bits only; the shorter types count as 32 bits. *)
Definition stack_bits (t : ity) : Z :=
  match t with I64 | U64 => 64 | _ => 32 end.

(** ** Shifts (ECMA-335 III.1.5, table III.6; III.3.58, III.3.59)

    The number to be shifted has 32 or 64 bits, the count has 32 bits. *)
Inductive shift_result : byte -> ity -> Z -> Z -> Z -> Prop :=
| shifted_left t a n r : (0 <= n < width t)%Z -> twos_complement t (a * 2 ^ n) r -> shift_result x62 t a n r
| shifted_right t a n r : (0 <= n < width t)%Z -> fits t r -> (r * 2 ^ n <= a < (r + 1) * 2 ^ n)%Z ->
    shift_result x63 t a n r.

(** What executing CIL instructions means, for comparison with the interpreter.  Only the data
    types of the model (machine states, frames, values, outcomes) are used here; the numbers of
    the instructions and the effects of the operations are those of ECMA-335, partition III. *)
From Coq Require Import NArith ZArith String List Bool.
From Coq.Strings Require Import Byte.
From Verif Require Import Base Runtime Value Opcodes Gc Interp.
Import ListNotations.
Open Scope N_scope.

(** ** Integers *)

Definition fits (t : ity) (x : Z) : Prop :=
  match t with
  | I8 => (-128 <= x <= 127)%Z
  | U8 => (0 <= x <= 255)%Z
  | I16 => (-32768 <= x <= 32767)%Z
  | U16 => (0 <= x <= 65535)%Z
  | I32 => (-2147483648 <= x <= 2147483647)%Z
  | U32 => (0 <= x <= 4294967295)%Z
  | I64 => (-9223372036854775808 <= x <= 9223372036854775807)%Z
  | U64 => (0 <= x <= 18446744073709551615)%Z
  end.
Definition width (t : ity) : Z :=
  match t with I8 | U8 => 8 | I16 | U16 => 16 | I32 | U32 => 32 | I64 | U64 => 64 end%Z.
Definition signed (t : ity) : Prop := t = I8 \/ t = I16 \/ t = I32 \/ t = I64.

(** Equality of the low [w] bits. *)
Definition same_bits (w x y : Z) : Prop := exists k, (x = y + k * 2 ^ w)%Z.

(** [r] is [x] reduced to type [t] the way two's complement does it. *)
Definition twos_complement (t : ity) (x r : Z) : Prop := fits t r /\ same_bits (width t) r x.

(** The unsigned number with the bits of [x]. *)
Definition as_unsigned (t : ity) (x : Z) : Z := if (x <? 0)%Z then (x + 2 ^ width t)%Z else x.

(** ** States *)

(** The code at the instruction pointer starts with [bs]. *)
Definition code_here (fr : frame) (bs : list byte) : Prop :=
  exists before after, fr_code fr = before ++ bs ++ after /\ fr_ip fr = len before.

(** The same frame, at address [ip]. *)
Definition frame_at (fr fr' : frame) (ip : N) : Prop :=
  fr_method fr' = fr_method fr /\ fr_assembly fr' = fr_assembly fr /\ fr_code fr' = fr_code fr /\
  fr_locals fr' = fr_locals fr /\ fr_params fr' = fr_params fr /\ fr_ip fr' = ip.

(** Nothing but the operand stack has changed. *)
Definition operands_become (s s' : machine) (l : list value) : Prop :=
  x_vm s' = x_vm s /\ x_heap s' = x_heap s /\ x_frames s' = x_frames s /\ x_alloc s' = x_alloc s /\
  x_host s' = x_host s /\ x_operands s' = l.

(** An instruction of [n] bytes replaced the operands by [l] and execution goes on behind it. *)
Definition continues (fr : frame) (s : machine) (n : N) (l : list value) (r : res machine outcome) : Prop :=
  exists fr' s', r = Ok (ONext fr') s' /\ frame_at fr fr' (fr_ip fr + n) /\ operands_become s s' l.

(** The same with execution going on [d] bytes behind the end of the instruction. *)
Definition branches (fr : frame) (s : machine) (n : N) (d : Z) (l : list value) (r : res machine outcome) : Prop :=
  exists fr' s' ip, r = Ok (ONext fr') s' /\ frame_at fr fr' ip /\
    Z.of_N ip = (Z.of_N (fr_ip fr + n) + d)%Z /\ operands_become s s' l.

Definition panics (r : res machine outcome) : Prop := exists why, r = Panic why.

(** ** Operands in the code *)

(** The number that [n] bytes encode, least significant byte first: unsigned and signed. *)
Fixpoint number (bs : list byte) : Z :=
  match bs with [] => 0 | b :: bs' => Z.of_N (Byte.to_N b) + 256 * number bs' end%Z.
Definition signed_number (bs : list byte) : Z :=
  let w := (8 * Z.of_nat (List.length bs))%Z in
  if (number bs <? 2 ^ (w - 1))%Z then number bs else (number bs - 2 ^ w)%Z.

(** ** Order *)

(** A binary floating point number with [mb] bits of fraction and [eb] bits of exponent (IEEE 754,
    3.4), measured in units of the smallest positive number of the format.  An infinity gets a
    number larger than that of every finite value. *)
Definition is_nan (mb eb : N) (b : N) : Prop :=
  (b / 2 ^ mb) mod 2 ^ eb = 2 ^ eb - 1 /\ b mod 2 ^ mb <> 0.
Definition measure (mb eb : N) (b : N) : Z :=
  let fraction := b mod 2 ^ mb in
  let exponent := (b / 2 ^ mb) mod 2 ^ eb in
  let magnitude := if exponent =? 0 then fraction else (2 ^ mb + fraction) * 2 ^ (exponent - 1) in
  if N.even (b / 2 ^ (mb + eb)) then Z.of_N magnitude else (- Z.of_N magnitude)%Z.

(** How two operands of the same numeric type compare; [None]: not at all. *)
Inductive ordered : value -> value -> option comparison -> Prop :=
| ordered_int t a b : ordered (VInt t a) (VInt t b) (Some (a ?= b)%Z)
| ordered_f32 a b : ~ is_nan 23 8 a -> ~ is_nan 23 8 b ->
    ordered (VF32 a) (VF32 b) (Some (measure 23 8 a ?= measure 23 8 b)%Z)
| ordered_f64 a b : ~ is_nan 52 11 a -> ~ is_nan 52 11 b ->
    ordered (VF64 a) (VF64 b) (Some (measure 52 11 a ?= measure 52 11 b)%Z)
| unordered_f32 a b : is_nan 23 8 a \/ is_nan 23 8 b -> ordered (VF32 a) (VF32 b) None
| unordered_f64 a b : is_nan 52 11 a \/ is_nan 52 11 b -> ordered (VF64 a) (VF64 b) None.

(** The comparison instructions and the relation each one tests. *)
Inductive comparison_code : list byte -> (comparison -> Prop) -> Prop :=
| is_ceq : comparison_code [xfe; x01] (fun c => c = Eq)
| is_cgt : comparison_code [xfe; x02] (fun c => c = Gt)
| is_clt : comparison_code [xfe; x04] (fun c => c = Lt).

(** The conditional branches on two operands: opcode, size of the displacement, relation. *)
Inductive branch_code : byte -> nat -> (comparison -> Prop) -> Prop :=
| is_beq : branch_code x3b 4 (fun c => c = Eq)
| is_beq_s : branch_code x2e 1 (fun c => c = Eq)
| is_bge : branch_code x3c 4 (fun c => c <> Lt)
| is_bge_s : branch_code x2f 1 (fun c => c <> Lt)
| is_bgt : branch_code x3d 4 (fun c => c = Gt)
| is_bgt_s : branch_code x30 1 (fun c => c = Gt)
| is_ble : branch_code x3e 4 (fun c => c <> Gt)
| is_ble_s : branch_code x31 1 (fun c => c <> Gt)
| is_blt : branch_code x3f 4 (fun c => c = Lt)
| is_blt_s : branch_code x32 1 (fun c => c = Lt).

(** The branches on one operand: opcode, size of the displacement, taken for zero. *)
Inductive zero_branch_code : byte -> nat -> bool -> Prop :=
| is_brfalse : zero_branch_code x39 4 true
| is_brfalse_s : zero_branch_code x2c 1 true
| is_brtrue : zero_branch_code x3a 4 false
| is_brtrue_s : zero_branch_code x2d 1 false.

(** The unconditional branches. *)
Inductive jump_code : byte -> nat -> Prop :=
| is_br : jump_code x38 4
| is_br_s : jump_code x2b 1.

(** The numbers that count as false. *)
Inductive zero_value : value -> Prop :=
| zero_int t : zero_value (VInt t 0)
| zero_f32 b : ~ is_nan 23 8 b -> measure 23 8 b = 0%Z -> zero_value (VF32 b)
| zero_f64 b : ~ is_nan 52 11 b -> measure 52 11 b = 0%Z -> zero_value (VF64 b).
Definition numeric (v : value) : Prop := match v with VObject _ => False | _ => True end.

(** ** Instruction formats (ECMA-335 III.1.2.1 and the descriptions of the instructions) *)

(** The instructions that the interpreter supports and that do not branch: the bytes of the opcode
    and the number of bytes of the operand. *)
Definition formats : list (list byte * N) :=
  [ ([x00], 0);                                                          (* nop *)
    ([x02], 0); ([x03], 0); ([x04], 0); ([x05], 0);                      (* ldarg.0 to ldarg.3 *)
    ([x06], 0); ([x07], 0); ([x08], 0); ([x09], 0);                      (* ldloc.0 to ldloc.3 *)
    ([x0a], 0); ([x0b], 0); ([x0c], 0); ([x0d], 0);                      (* stloc.0 to stloc.3 *)
    ([x0e], 1); ([x10], 1); ([x11], 1); ([x13], 1);                      (* ldarg.s starg.s ldloc.s stloc.s *)
    ([x15], 0); ([x16], 0); ([x17], 0); ([x18], 0); ([x19], 0);          (* ldc.i4.m1 to ldc.i4.8 *)
    ([x1a], 0); ([x1b], 0); ([x1c], 0); ([x1d], 0); ([x1e], 0);
    ([x1f], 1); ([x20], 4); ([x21], 8); ([x22], 4); ([x23], 8);          (* ldc.i4.s .i4 .i8 .r4 .r8 *)
    ([x25], 0); ([x26], 0);                                              (* dup pop *)
    ([x28], 4);                                                          (* call *)
    ([x58], 0); ([x59], 0); ([x5a], 0); ([x5b], 0); ([x5c], 0);          (* add sub mul div div.un *)
    ([x5d], 0); ([x5e], 0); ([x5f], 0); ([x60], 0); ([x61], 0);          (* rem rem.un and or xor *)
    ([x62], 0); ([x63], 0); ([x65], 0); ([x66], 0);                      (* shl shr neg not *)
    ([x72], 4); ([x73], 4); ([x7b], 4); ([x7d], 4); ([x8d], 4);          (* ldstr newobj ldfld stfld newarr *)
    ([x94], 0); ([x9e], 0);                                              (* ldelem.i4 stelem.i4 *)
    ([xfe; x01], 0); ([xfe; x02], 0); ([xfe; x03], 0); ([xfe; x04], 0); ([xfe; x05], 0); (* ceq cgt clt *)
    ([xfe; x09], 2); ([xfe; x0b], 2); ([xfe; x0c], 2); ([xfe; x0e], 2) ]. (* ldarg starg ldloc stloc *)

(** The branches and their displacements. *)
Definition branch_formats : list (list byte * N) :=
  [ ([x2b], 1); ([x2c], 1); ([x2d], 1); ([x2e], 1); ([x2f], 1); ([x30], 1); ([x31], 1); ([x32], 1);
    ([x38], 4); ([x39], 4); ([x3a], 4); ([x3b], 4); ([x3c], 4); ([x3d], 4); ([x3e], 4); ([x3f], 4) ].

(** ** Variables *)

(** Variable [i] of a group has value [v]. *)
Definition variable (s : machine) (c : cells) (i : N) (v : value) : Prop :=
  match c with
  | CHost => nth_error (x_host s) (N.to_nat i) = Some v
  | CFrames gen base n =>
      gen = k_gen (x_frames s) /\ i < n /\ nth_error (k_cells (x_frames s)) (N.to_nat (base + i)) = Some v
  end.

(** ** Constants *)

Inductive constant_code : list byte -> value -> Prop :=
| is_ldc_m1 : constant_code [x15] (VInt I32 (-1))
| is_ldc_0 : constant_code [x16] (VInt I32 0)
| is_ldc_1 : constant_code [x17] (VInt I32 1)
| is_ldc_2 : constant_code [x18] (VInt I32 2)
| is_ldc_3 : constant_code [x19] (VInt I32 3)
| is_ldc_4 : constant_code [x1a] (VInt I32 4)
| is_ldc_5 : constant_code [x1b] (VInt I32 5)
| is_ldc_6 : constant_code [x1c] (VInt I32 6)
| is_ldc_7 : constant_code [x1d] (VInt I32 7)
| is_ldc_8 : constant_code [x1e] (VInt I32 8)
| is_ldc_s a : constant_code [x1f; a] (VInt I32 (signed_number [a]))
| is_ldc_i4 a b c d : constant_code [x20; a; b; c; d] (VInt I32 (signed_number [a; b; c; d]))
| is_ldc_i8 a b c d e f g h :
    constant_code [x21; a; b; c; d; e; f; g; h] (VInt I64 (signed_number [a; b; c; d; e; f; g; h]))
| is_ldc_r4 a b c d : constant_code [x22; a; b; c; d] (VF32 (Z.to_N (number [a; b; c; d])))
| is_ldc_r8 a b c d e f g h :
    constant_code [x23; a; b; c; d; e; f; g; h] (VF64 (Z.to_N (number [a; b; c; d; e; f; g; h]))).

Inductive load_code : list byte -> bool -> N -> Prop :=
| is_ldarg_0 : load_code [x02] true 0
| is_ldarg_1 : load_code [x03] true 1
| is_ldarg_2 : load_code [x04] true 2
| is_ldarg_3 : load_code [x05] true 3
| is_ldarg_s i : load_code [x0e; i] true (Z.to_N (number [i]))
| is_ldloc_0 : load_code [x06] false 0
| is_ldloc_1 : load_code [x07] false 1
| is_ldloc_2 : load_code [x08] false 2
| is_ldloc_3 : load_code [x09] false 3
| is_ldloc_s i : load_code [x11; i] false (Z.to_N (number [i]))
| is_ldloc i j : load_code [xfe; x0c; i; j] false (Z.to_N (number [i; j])).
Inductive store_code : list byte -> bool -> N -> Prop :=
| is_starg_s i : store_code [x10; i] true (Z.to_N (number [i]))
| is_stloc_0 : store_code [x0a] false 0
| is_stloc_1 : store_code [x0b] false 1
| is_stloc_2 : store_code [x0c] false 2
| is_stloc_3 : store_code [x0d] false 3
| is_stloc_s i : store_code [x13; i] false (Z.to_N (number [i]))
| is_stloc i j : store_code [xfe; x0e; i; j] false (Z.to_N (number [i; j])).

Definition group (fr : frame) (argument : bool) : cells := if argument then fr_params fr else fr_locals fr.

(** Storing: nothing but the variable and the operand stack changes. *)
Definition stores (fr : frame) (s : machine) (n : N) (c : cells) (i : N) (v : value) (l : list value)
    (r : res machine outcome) : Prop :=
  exists fr' s', r = Ok (ONext fr') s' /\ frame_at fr fr' (fr_ip fr + n) /\
    x_operands s' = l /\ x_vm s' = x_vm s /\ x_heap s' = x_heap s /\ x_alloc s' = x_alloc s /\
    variable s' c i v /\
    k_gen (x_frames s') = k_gen (x_frames s) /\ k_cap (x_frames s') = k_cap (x_frames s) /\
    List.length (k_cells (x_frames s')) = List.length (k_cells (x_frames s)) /\
    List.length (x_host s') = List.length (x_host s) /\
    match c with
    | CHost => x_frames s' = x_frames s /\
        forall j, j <> N.to_nat i -> nth_error (x_host s') j = nth_error (x_host s) j
    | CFrames _ base _ => x_host s' = x_host s /\
        forall j, j <> N.to_nat (base + i) ->
          nth_error (k_cells (x_frames s')) j = nth_error (k_cells (x_frames s)) j
    end.

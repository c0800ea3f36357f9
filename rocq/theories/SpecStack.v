(** The evaluation stack discipline of ECMA-335 (III.1.7.4, III.1.7.5 and the stack transition
    diagrams of the instructions): at every address of a method the number of its own operands is
    known, and the operands of its callers are out of its reach. *)
From Coq Require Import NArith ZArith String List Bool.
From Coq.Strings Require Import Byte.
From Verif Require Import Base Runtime Value Opcodes Gc Interp SpecExec SpecFrames.
Import ListNotations.
Open Scope N_scope.

(** ** Methods *)

(** Token [tok] in the code of assembly [a] stands for method [m] (II.22, III.1.9): table 6 lists
    the methods that the assembly defines, table 10 those that it refers to; rows count from 1. *)
Definition denotes (s : vm) (a : aref) (tok : N) (m : method_info) : Prop :=
  exists ai r, nth_error (c_arena s) a = Some (Some ai) /\ r + 1 < 2 ^ 24 /\
    (tok = 6 * 2 ^ 24 + (r + 1) /\ nth_error (a_method_defs ai) (N.to_nat r) = Some m \/
     tok = 10 * 2 ^ 24 + (r + 1) /\ nth_error (a_method_refs ai) (N.to_nat r) = Some m).

(** The number of results of [m]: none if its return type is System.Void, one otherwise. *)
Inductive results (s : vm) (m : method_info) : nat -> Prop :=
| no_result ti : nth_error (c_types s) (mt_return m) = Some ti ->
    ti_full_name ti = bytes_of_string "System.Void" -> results s m 0
| one_result ti : nth_error (c_types s) (mt_return m) = Some ti ->
    ti_full_name ti <> bytes_of_string "System.Void" -> results s m 1.

(** The number of arguments that a call of [m] takes: its parameters and, for an instance method,
    the object. *)
Definition arguments (m : method_info) : nat :=
  (List.length (mt_params m) + if mt_static m then 0 else 1)%nat.

(** ** Instructions that neither branch nor call: opcode, size of the operand in the code, number of
    values popped and pushed.  The long forms of ldarg and starg are left out, because the
    interpreter gets their size wrong (C48). *)
Definition effects : list (list byte * N * nat * nat) :=
  [ ([x00], 0, 0%nat, 0%nat) ]                                                     (* nop *) ++
  map (fun b => ([b], 0, 0%nat, 1%nat)) [x02; x03; x04; x05; x06; x07; x08; x09]   (* ldarg.n ldloc.n *) ++
  map (fun b => ([b], 0, 1%nat, 0%nat)) [x0a; x0b; x0c; x0d]                       (* stloc.n *) ++
  [ ([x0e], 1, 0%nat, 1%nat); ([x10], 1, 1%nat, 0%nat);                            (* ldarg.s starg.s *)
    ([x11], 1, 0%nat, 1%nat); ([x13], 1, 1%nat, 0%nat) ]                           (* ldloc.s stloc.s *) ++
  map (fun b => ([b], 0, 0%nat, 1%nat)) [x15; x16; x17; x18; x19; x1a; x1b; x1c; x1d; x1e] (* ldc.i4.n *) ++
  [ ([x1f], 1, 0%nat, 1%nat); ([x20], 4, 0%nat, 1%nat); ([x21], 8, 0%nat, 1%nat);  (* ldc.i4.s .i4 .i8 *)
    ([x22], 4, 0%nat, 1%nat); ([x23], 8, 0%nat, 1%nat);                            (* ldc.r4 .r8 *)
    ([x25], 0, 1%nat, 2%nat); ([x26], 0, 1%nat, 0%nat) ]                           (* dup pop *) ++
  map (fun b => ([b], 0, 2%nat, 1%nat))
    [x58; x59; x5a; x5b; x5c; x5d; x5e; x5f; x60; x61; x62; x63]                   (* add to shr *) ++
  [ ([x65], 0, 1%nat, 1%nat); ([x66], 0, 1%nat, 1%nat);                            (* neg not *)
    ([x72], 4, 0%nat, 1%nat);                                                      (* ldstr *)
    ([x7b], 4, 1%nat, 1%nat); ([x7d], 4, 2%nat, 0%nat);                            (* ldfld stfld *)
    ([x8d], 4, 1%nat, 1%nat); ([x94], 0, 2%nat, 1%nat); ([x9e], 0, 3%nat, 0%nat);  (* newarr ldelem.i4 stelem.i4 *)
    ([xfe; x01], 0, 2%nat, 1%nat); ([xfe; x02], 0, 2%nat, 1%nat);                  (* ceq cgt *)
    ([xfe; x03], 0, 2%nat, 1%nat); ([xfe; x04], 0, 2%nat, 1%nat);                  (* cgt.un clt *)
    ([xfe; x05], 0, 2%nat, 1%nat);                                                 (* clt.un *)
    ([xfe; x0c], 2, 0%nat, 1%nat); ([xfe; x0e], 2, 1%nat, 0%nat) ].                (* ldloc stloc *)

(** ** Methods with a consistent stack *)

Definition bytes_at (code : list byte) (ip : N) (bs : list byte) : Prop :=
  exists before after, code = before ++ bs ++ after /\ ip = len before.

Section Balance.
  (** The runtime, the methods that are called, the method, its assembly and its code, and the number of its
      operands at each address. *)
  Variables (s : vm) (T : method_info -> Prop) (m : method_info) (a : aref) (code : list byte) (d : N -> option nat).

  (** The instruction at address [ip], where there are [k] operands, agrees with [d]. *)
  Inductive agrees (ip : N) (k : nat) : Prop :=
  | with_effect op n pops pushes operand : In (op, n, pops, pushes) effects ->
      bytes_at code ip (op ++ operand) -> len operand = n -> (pops <= k)%nat ->
      d (ip + len op + n) = Some (k - pops + pushes)%nat -> agrees ip k
  | with_jump i n bs target : jump_code i n -> bytes_at code ip (i :: bs) -> List.length bs = n ->
      Z.of_N target = (Z.of_N ip + 1 + Z.of_nat n + signed_number bs)%Z -> d target = Some k -> agrees ip k
  | with_branch i n bs rel target : branch_code i n rel -> bytes_at code ip (i :: bs) -> List.length bs = n ->
      Z.of_N target = (Z.of_N ip + 1 + Z.of_nat n + signed_number bs)%Z -> (2 <= k)%nat ->
      d target = Some (k - 2)%nat -> d (ip + 1 + N.of_nat n) = Some (k - 2)%nat -> agrees ip k
  | with_zero_branch i n bs zero target : zero_branch_code i n zero -> bytes_at code ip (i :: bs) -> List.length bs = n ->
      Z.of_N target = (Z.of_N ip + 1 + Z.of_nat n + signed_number bs)%Z -> (1 <= k)%nat ->
      d target = Some (k - 1)%nat -> d (ip + 1 + N.of_nat n) = Some (k - 1)%nat -> agrees ip k
  | with_call bs m' r : bytes_at code ip (x28 :: bs) -> List.length bs = 4%nat ->
      denotes s a (Z.to_N (number bs)) m' -> T m' -> results s m' r -> (arguments m' <= k)%nat ->
      d (ip + 5) = Some (k - arguments m' + r)%nat -> agrees ip k
  | with_newobj bs m' : bytes_at code ip (x73 :: bs) -> List.length bs = 4%nat ->
      denotes s a (Z.to_N (number bs)) m' -> T m' -> mt_static m' = false -> results s m' 0 ->
      (List.length (mt_params m') <= k)%nat ->
      d (ip + 5) = Some (k - List.length (mt_params m') + 1)%nat -> agrees ip k
  | with_return : bytes_at code ip [x2a] -> results s m k -> agrees ip k.

  (** A method starts with no operands of its own. *)
  Definition balanced : Prop :=
    len code < 2 ^ 32 /\ d 0 = Some 0%nat /\ forall ip k, d ip = Some k -> ip < len code /\ agrees ip k.
End Balance.

(** All methods in [T] have consistent stacks, and only call methods in [T]. *)
Definition verified (s : vm) (T : method_info -> Prop) : Prop :=
  forall m, T m ->
    match mt_impl m with
    | IIL b => exists ti d, nth_error (c_types s) (mt_declaring m) = Some ti /\
                 balanced s T m (ti_assembly ti) (b_code b) d
    | _ => results s m 0
    end.

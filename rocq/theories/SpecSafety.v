(** The places an execution passes through, finished or not, and the hazards that the interpreter does not
    guard against, for the statement of properties about undefined behaviour. *)
From Coq Require Import NArith ZArith String List Bool.
From Coq.Strings Require Import Byte.
From Verif Require Import Base Runtime Value Gc Interp SpecBytes SpecExec SpecFrames SpecStack SpecRuntime SpecTypes SpecHeap.
Import ListNotations.
Open Scope N_scope.

(** ** Places *)

(** In front of an instruction of a frame, or of the call of a method whose arguments are in place. *)
Inductive place := InFrame (fr : frame) (s : machine) | Calling (m : method_info) (args : cells) (s : machine).
Definition state_of (x : place) : machine := match x with InFrame _ s => s | Calling _ _ s => s end.

(** From one place, execution comes to the other one: through any number of instructions, into calls and
    past calls that have returned. *)
Inductive reaches (p : profile) : place -> place -> Prop :=
| reached x : reaches p x x
| past_instruction f fr s fr1 s1 x : step f p fr s = Ok (ONext fr1) s1 ->
    reaches p (InFrame fr1 s1) x -> reaches p (InFrame fr s) x
| to_call f fr s m args r fr1 s1 x : step f p fr s = Ok (OCall m args r fr1) s1 ->
    reaches p (Calling m args s1) x -> reaches p (InFrame fr s) x
| into_call m b args s fr s1 x : mt_impl m = IIL b -> enters m b args s fr s1 ->
    reaches p (InFrame fr s1) x -> reaches p (Calling m args s) x
| past_call f fr s m args r fr1 s1 t v s2 x : step f p fr s = Ok (OCall m args r fr1) s1 ->
    calls p m args s1 t (Done v s2) ->
    reaches p (InFrame fr1 (with_operands s2 (then_push (then_push (x_operands s2) v) r))) x ->
    reaches p (InFrame fr s) x.

(** The place where an execution starts that the host asks for. *)
Definition start (m : method_info) (params : list value) (s : vm) : place := Calling m CHost (new_machine s params).

(** ** Hazards *)

(** The operands of instructions as the interpreter reads them: those of the standard, except for the long
    forms of ldarg and starg (C48). *)
Definition operand_sizes : list (list byte * N) :=
  formats ++ branch_formats ++ [ ([xfe; x09], 4); ([xfe; x0b], 4) ].

(** The instruction at hand has the opcode [op]. *)
Definition instruction (fr : frame) (op : list byte) : Prop := bytes_at (fr_code fr) (fr_ip fr) op.

(** The number of bytes of a number. *)
Definition width_of (v : value) : option N :=
  match v with
  | VInt I8 _ | VInt U8 _ => Some 1
  | VInt I16 _ | VInt U16 _ => Some 2
  | VInt I32 _ | VInt U32 _ | VF32 _ => Some 4
  | VInt I64 _ | VInt U64 _ | VF64 _ => Some 8
  | VObject _ => None
  end.

(** [o] is an object with [n] bytes of fields, going by the type in its header. *)
Definition object_bytes (s : machine) (o : obj) (n : N) : Prop :=
  exists id t ti, stored s o 0 ([x00] ++ id) /\ nth_error (c_types (x_vm s)) t = Some ti /\ encodes 4 (ti_id ti) id /\
    size (c_types (x_vm s)) t n.

Inductive hazard (p : profile) : place -> Prop :=
(** The storage of local variables and arguments has outgrown the 1024 bytes it starts with (64 variables). *)
| storage_outgrown x : 64 < in_use (state_of x) -> hazard p x
(** The heap has outgrown the 1024 bytes it starts with. *)
| heap_outgrown x : 1024 < len (memory (state_of x)) -> hazard p x
(** There are more types than identifiers. *)
| types_outnumber x : 2 ^ 32 < len (c_types (x_vm (state_of x))) -> hazard p x
(** The code ends within the operand of the instruction. *)
| operand_cut_off fr s op n : instruction fr op -> In (op, n) operand_sizes ->
    len (fr_code fr) < fr_ip fr + len op + n -> hazard p (InFrame fr s)
(** stfld: the field is not inside the object, or is narrower than the number. *)
| stores_outside fr s tok f v o rest k n : instruction fr (x7d :: tok) -> List.length tok = 4%nat ->
    denotes_field (x_vm s) (fr_assembly fr) (Z.to_N (number tok)) f -> x_operands s = v :: VObject o :: rest ->
    width_of v = Some k -> object_bytes s o n -> n < f_offset f + k -> hazard p (InFrame fr s)
(** ldfld: the field is not inside the object. *)
| loads_outside fr s tok f o rest v nm k n : instruction fr (x7b :: tok) -> List.length tok = 4%nat ->
    denotes_field (x_vm s) (fr_assembly fr) (Z.to_N (number tok)) f -> x_operands s = VObject o :: rest ->
    type_name_of v = Some nm -> is_named (c_types (x_vm s)) (f_type f) nm -> width_of v = Some k ->
    object_bytes s o n -> n < f_offset f + k -> hazard p (InFrame fr s)
(** newobj and newarr in a release build: the size of the heap with the object would not fit into 64 bits. *)
| object_too_large fr s tok m n : p = Release -> instruction fr (x73 :: tok) -> List.length tok = 4%nat ->
    denotes (x_vm s) (fr_assembly fr) (Z.to_N (number tok)) m -> size (c_types (x_vm s)) (mt_declaring m) n ->
    2 ^ 64 <= len (memory s) + 5 + n -> hazard p (InFrame fr s)
| array_too_large fr s tok t k rest n : p = Release -> instruction fr (x8d :: tok) -> List.length tok = 4%nat ->
    denotes_type (x_vm s) (fr_assembly fr) (Z.to_N (number tok)) t -> x_operands s = VInt I32 k :: rest ->
    size (c_types (x_vm s)) t n -> 2 ^ 64 <= len (memory s) + 17 + n * Z.to_N (k mod 2 ^ 64) ->
    hazard p (InFrame fr s).

(** Tables and heaps of user strings have sizes that vectors can have. *)
Definition vectors (s : vm) : Prop :=
  forall a ai, nth_error (c_arena s) a = Some (Some ai) ->
    len (a_user_strings ai) < 2 ^ 63 /\ len (a_fields ai) < 2 ^ 63 /\ len (a_types ai) < 2 ^ 63 /\
    len (a_type_refs ai) < 2 ^ 63 /\ len (a_method_defs ai) < 2 ^ 63 /\ len (a_method_refs ai) < 2 ^ 63.

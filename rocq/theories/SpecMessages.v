(** Specification: what the text of an error says about the instruction that failed. *)
From Coq Require Import NArith ZArith String List.
From Coq.Strings Require Import Byte.
From Verif Require Import Base Metadata Runtime Value Gc Interp SpecRuntime SpecExec SpecStack SpecTypes SpecHeap SpecMnemonics SpecTexts.
Import ListNotations.
Open Scope N_scope.

(** ** Numbers and values *)

(** An offset in the code: hexadecimal, at least four digits, no more of them than needed. *)
Definition offset_text (n : N) (ds : name) : Prop :=
  hex_number ds n /\ (4 <= List.length ds)%nat /\ ((4 < List.length ds)%nat -> exists c l, ds = c :: l /\ c <> x30).
(** A token: eight hexadecimal digits. *)
Definition token_shown (tok : N) (t : name) : Prop :=
  exists ds, t = bytes_of_string "0x" ++ ds /\ List.length ds = 8%nat /\ hex_number ds tok.

(** The decimal digits [ds] are the number [v]. *)
Inductive dec_number : list byte -> N -> Prop :=
| dec_none : dec_number [] 0
| dec_more ds v c d : dec_number ds v ->
    nth_error (bytes_of_string "0123456789") (N.to_nat d) = Some c -> dec_number (ds ++ [c]) (10 * v + d).
(** A number is written with at least one digit, and without zeros in front of it. *)
Definition natural (n : N) (ds : name) : Prop :=
  dec_number ds n /\ exists c l, ds = c :: l /\ (c = x30 -> l = []).
Definition integer (x : Z) (t : name) : Prop :=
  (0 <= x)%Z /\ natural (Z.to_N x) t \/
  (x < 0)%Z /\ exists ds, t = bytes_of_string "-" ++ ds /\ natural (Z.to_N (- x)) ds.

(** A value: its kind and, for an integer, the number.  How floats and addresses are written is left open. *)
Inductive value_shown : value -> name -> Prop :=
| int_shown t x n ds :
    In (t, n) [(I8, "I8"); (U8, "U8"); (I16, "I16"); (U16, "U16"); (I32, "I32"); (U32, "U32"); (I64, "I64"); (U64, "U64")]%string ->
    integer x ds -> value_shown (VInt t x) (bytes_of_string n ++ bytes_of_string "(" ++ ds ++ bytes_of_string ")")
| single_shown b w : value_shown (VF32 b) (bytes_of_string "F32(" ++ w ++ bytes_of_string ")")
| double_shown b w : value_shown (VF64 b) (bytes_of_string "F64(" ++ w ++ bytes_of_string ")")
| object_shown o w : value_shown (VObject o) (bytes_of_string "Object(Object(" ++ w ++ bytes_of_string "))").

(** ** What went wrong *)

(** The value is no reference to an array: in the first byte of an array, bit 1 is set. *)
Definition no_array (s : machine) (v : value) : Prop :=
  forall o, v = VObject o -> exists flags, stored s o 0 [flags] /\ N.testbit (Byte.to_N flags) 1 = false.
(** [o] is an array of type [t] whose elements do not have the type System.Int32. *)
Definition other_array (s : machine) (o : obj) (t : tref) : Prop :=
  exists flags id eid, stored s o 0 [flags] /\ stored s o 1 id /\ stored s o 5 eid /\ N.testbit (Byte.to_N flags) 1 = true /\
    encodes 4 (N.of_nat t) id /\ List.length eid = 4%nat /\
    forall u ti, builtin (x_vm s) (bytes_of_string "System.Int32") u -> nth_error (c_types (x_vm s)) u = Some ti ->
      ~ encodes 4 (ti_id ti) eid.

(** The operand on which [stelem.i4] or [ldelem.i4] works. *)
Definition array_operand (fr : frame) (s : machine) (v : value) : Prop :=
  (exists i rest, code_here fr [x94] /\ x_operands s = VInt I32 i :: v :: rest) \/
  (exists x i rest, code_here fr [x9e] /\ x_operands s = VInt I32 x :: VInt I32 i :: v :: rest).

(** The text [t] says what is wrong with the instruction at hand. *)
Inductive explains (fr : frame) (s : machine) : name -> Prop :=
(** CIL has the instruction, the interpreter has not: its name and where it is. *)
| unsupported code mnemonic ds : In (code, mnemonic) instructions -> code_here fr code ->
    (forall n, ~ In (code, n) (formats ++ branch_formats ++ [([x2a], 0)])) -> offset_text (fr_ip fr) ds ->
    explains fr s (bytes_of_string "Use of unimplemented instruction " ++ bytes_of_string (spelled mnemonic) ++
                   bytes_of_string " at IL_" ++ ds)
(** The token of a call is not that of a method: the token and the name of the assembly. *)
| missing_method tok shown ai : code_here fr (x28 :: tok) -> List.length tok = 4%nat ->
    (forall m, ~ denotes (x_vm s) (fr_assembly fr) (Z.to_N (number tok)) m) ->
    nth_error (c_arena (x_vm s)) (fr_assembly fr) = Some (Some ai) -> token_shown (Z.to_N (number tok)) shown ->
    explains fr s (bytes_of_string "Cannot find method for metadata token " ++ shown ++ bytes_of_string " in " ++ a_name ai)
(** The token of a [ldstr] is not that of a literal: the token. *)
| missing_string tok shown : code_here fr (x72 :: tok) -> List.length tok = 4%nat ->
    (forall text, ~ denotes_string (x_vm s) (fr_assembly fr) (Z.to_N (number tok)) text) ->
    token_shown (Z.to_N (number tok)) shown ->
    explains fr s (bytes_of_string "Cannot find string for token " ++ shown)
(** [stfld] and [ldfld] on something that is no object: the value. *)
| stored_in tok x v rest shown : code_here fr (x7d :: tok) -> List.length tok = 4%nat -> x_operands s = x :: v :: rest ->
    (forall o, v <> VObject o) -> value_shown v shown ->
    explains fr s (bytes_of_string "Cannot store field in " ++ shown)
| loaded_from tok v rest shown : code_here fr (x7b :: tok) -> List.length tok = 4%nat -> x_operands s = v :: rest ->
    (forall o, v <> VObject o) -> value_shown v shown ->
    explains fr s (bytes_of_string "Cannot load field from " ++ shown)
(** [stelem.i4] and [ldelem.i4] on something that is no array: which of the two, and the value. *)
| stelem_on v shown : code_here fr [x9e] -> array_operand fr s v -> no_array s v -> value_shown v shown ->
    explains fr s (bytes_of_string "Invalid operation: Stelem on " ++ shown)
| ldelem_on v shown : code_here fr [x94] -> array_operand fr s v -> no_array s v -> value_shown v shown ->
    explains fr s (bytes_of_string "Invalid operation: Ldelem on " ++ shown)
(** The same instructions on an array of another type: the name of that type. *)
| array_of_others o t n : array_operand fr s (VObject o) -> other_array s o t -> is_named (c_types (x_vm s)) t n ->
    explains fr s (bytes_of_string "Cannot use " ++ n ++ bytes_of_string " as System.Int32[]").

(** ** Where the text is wrong *)

(** What the text says about the instruction at hand is not so. *)
Inductive misleads (fr : frame) (s : machine) : name -> Prop :=
(** An instruction of two bytes that the interpreter has not: the offset is that of the second byte. *)
| second_byte code mnemonic ds : In (code, mnemonic) instructions -> List.length code = 2%nat -> code_here fr code ->
    (forall n, ~ In (code, n) (formats ++ branch_formats ++ [([x2a], 0)])) -> offset_text (fr_ip fr + 1) ds ->
    misleads fr s (bytes_of_string "Use of unimplemented instruction " ++ bytes_of_string (spelled mnemonic) ++
                   bytes_of_string " at IL_" ++ ds)
(** The byte 0xf8, which is no instruction of CIL. *)
| no_instruction ds : code_here fr [xf8] -> offset_text (fr_ip fr) ds ->
    misleads fr s (bytes_of_string "Use of unimplemented instruction Prefix7 at IL_" ++ ds)
(** [ldelem.i4] on something that is no array: the text names the other instruction. *)
| named_stelem v shown : code_here fr [x94] -> array_operand fr s v -> no_array s v -> value_shown v shown ->
    misleads fr s (bytes_of_string "Invalid operation: Stelem on " ++ shown).

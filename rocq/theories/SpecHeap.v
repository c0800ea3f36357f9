(** Layout and contents of the objects on the heap, for the statement of properties about it. *)
From Coq Require Import NArith ZArith String List Bool.
From Coq.Strings Require Import Byte.
From Verif Require Import Base Runtime Value Gc Interp SpecBytes SpecUtf SpecBlob SpecExec SpecRuntime SpecTypes.
Import ListNotations.
Open Scope N_scope.

(** The bytes of the heap. *)
Definition memory (s : machine) : list byte := h_mem (x_heap s).

(** [bs] is stored [d] bytes behind the place where [o] points, and [o] points into the buffer that the
    heap has now. *)
Definition stored (s : machine) (o : obj) (d : N) (bs : list byte) : Prop :=
  o_gen o = h_gen (x_heap s) /\
  exists before after, memory s = before ++ bs ++ after /\ len before = o_off o + d.

(** [bs] are [n] bytes that encode the number [x], least significant byte first. *)
Definition encodes (n : nat) (x : N) (bs : list byte) : Prop := List.length bs = n /\ number bs = Z.of_N x.

(** ** Blocks: what an allocation adds to the heap *)

(** A request for an object of type [t], for an array of [length] elements of type [t], or for a string. *)
Inductive request := an_object (t : tref) | an_array (t : tref) (length : N) | a_string (text : list N).

Definition zeros (n : N) : list byte := repeat x00 (N.to_nat n).

(** Every block starts with a byte of flags and the identifier of a type.  An object has its fields
    next; an array the identifier of the type of its elements, its length and the elements; a string
    its length and its code units.  Fields and elements start as zeros.  Array and string types are
    found by their names. *)
Inductive block (ts : list type_info) : request -> list byte -> Prop :=
| object_block t ti n id :
    nth_error ts t = Some ti -> encodes 4 (ti_id ti) id -> size ts t n ->
    block ts (an_object t) ([x00] ++ id ++ zeros n)
| array_block t ti u ui n length id eid l :
    nth_error ts u = Some ui -> encodes 4 (ti_id ui) id -> latest ts (ti_full_name ti ++ bytes_of_string "[]") u ->
    nth_error ts t = Some ti -> encodes 4 (ti_id ti) eid -> size ts t n -> encodes 8 length l ->
    block ts (an_array t length) ([x02] ++ id ++ eid ++ l ++ zeros (n * length))
| string_block u ui text id l cs :
    nth_error ts u = Some ui -> encodes 4 (ti_id ui) id -> latest ts (bytes_of_string "System.String") u ->
    encodes 8 (len text) l -> Forall2 (encodes 2) text cs ->
    block ts (a_string text) ([x04] ++ id ++ l ++ concat cs).

(** [o] has been allocated between [s] and [s']: its block follows everything that was there, and
    nothing else has changed except that the heap may have moved, if it had no room for the block. *)
Definition allocated (s : machine) (o : obj) (bs : list byte) (s' : machine) : Prop :=
  memory s' = memory s ++ bs /\ o = mkObj (h_gen (x_heap s')) (len (memory s)) /\
  x_frames s' = x_frames s /\ x_alloc s' = x_alloc s /\ x_operands s' = x_operands s /\ x_host s' = x_host s /\
  (len (memory s) + len bs <= h_cap (x_heap s) ->
     h_gen (x_heap s') = h_gen (x_heap s) /\ h_cap (x_heap s') = h_cap (x_heap s)) /\
  (h_cap (x_heap s) < len (memory s) + len bs -> (h_gen (x_heap s) < h_gen (x_heap s'))%nat).

(** A release build computes sizes modulo 2^64; a debug build panics instead. *)
Definition no_wrap (p : profile) (n : N) : Prop := p = Release -> n < 2 ^ 64.

(** ** Allocations through the functions of the heap *)
Section Allocations.
  Variable p : profile.

  (** The request is granted; lengths are [usize], code units [u16]. *)
  Inductive granted (s : machine) : request -> obj -> machine -> Prop :=
  | object_granted fuel t o s' : alloc fuel p t s = Ok o s' -> granted s (an_object t) o s'
  | array_granted fuel t length o s' : length < 2 ^ 64 ->
      alloc_array fuel p t length s = Ok o s' -> granted s (an_array t length) o s'
  | string_granted text o s' : Forall (fun u => u < 2 ^ 16) text -> len text < 2 ^ 64 ->
      alloc_string p text s = Ok o s' -> granted s (a_string text) o s'.

  (** Any number of allocations, with their blocks. *)
  Inductive grants (s : machine) : list (obj * list byte) -> machine -> Prop :=
  | no_more : grants s [] s
  | one_more l s1 r o bs s2 : grants s l s1 -> granted s1 r o s2 -> block (c_types (x_vm s2)) r bs ->
      no_wrap p (len (memory s1) + len bs) -> grants s (l ++ [(o, bs)]) s2.
End Allocations.

(** ** Values in memory *)

(** The name of the type of a number. *)
Definition type_name_of (v : value) : option name :=
  match v with
  | VInt I8 _ => Some (bytes_of_string "System.SByte") | VInt U8 _ => Some (bytes_of_string "System.Byte")
  | VInt I16 _ => Some (bytes_of_string "System.Int16") | VInt U16 _ => Some (bytes_of_string "System.UInt16")
  | VInt I32 _ => Some (bytes_of_string "System.Int32") | VInt U32 _ => Some (bytes_of_string "System.UInt32")
  | VInt I64 _ => Some (bytes_of_string "System.Int64") | VInt U64 _ => Some (bytes_of_string "System.UInt64")
  | VF32 _ => Some (bytes_of_string "System.Single") | VF64 _ => Some (bytes_of_string "System.Double")
  | VObject _ => None
  end.
(** [bs] represents [v]: two's complement, or the bits of a floating point number. *)
Inductive represents : value -> list byte -> Prop :=
| unsigned_bytes t x bs : isigned t = false -> 8 * len bs = ibits t -> number bs = x -> represents (VInt t x) bs
| signed_bytes t x bs : isigned t = true -> 8 * len bs = ibits t -> signed_number bs = x -> represents (VInt t x) bs
| single_bytes b bs : encodes 4 b bs -> represents (VF32 b) bs
| double_bytes b bs : encodes 8 b bs -> represents (VF64 b) bs.

(** The types that the runtime has picked for the numbers and for System.Object. *)
Definition builtin (s : vm) (n : name) (t : tref) : Prop :=
  exists q, c_primitives s = Some q /\
    In (n, t) [(bytes_of_string "System.SByte", pt_sbyte q); (bytes_of_string "System.Byte", pt_byte q);
               (bytes_of_string "System.Int16", pt_short q); (bytes_of_string "System.UInt16", pt_ushort q);
               (bytes_of_string "System.Int32", pt_int q); (bytes_of_string "System.UInt32", pt_uint q);
               (bytes_of_string "System.Int64", pt_long q); (bytes_of_string "System.UInt64", pt_ulong q);
               (bytes_of_string "System.Single", pt_float q); (bytes_of_string "System.Double", pt_double q);
               (bytes_of_string "System.Object", pt_object q)].
(** They have been picked, and by their names. *)
Definition started (s : vm) : Prop :=
  c_primitives s <> None /\ forall n t, builtin s n t -> is_named (c_types s) t n.

(** A runtime in use: consistent, and with the built-in types picked. *)
Definition ready (p : profile) (s : vm) : Prop := consistent p s /\ started s.

(** ** Fields *)

(** Field [f] of the object [o] has the type of [v] and the value [v]; the fields follow the five
    bytes of the header. *)
Definition field_value (s : machine) (o : obj) (f : field_info) (v : value) : Prop :=
  stored s o 0 [x00] /\
  (exists n, type_name_of v = Some n /\ is_named (c_types (x_vm s)) (f_type f) n) /\
  exists bs, represents v bs /\ stored s o (5 + f_offset f) bs.

(** Only the [n] bytes at [d] behind [o] may have changed. *)
Definition only_writes (s s' : machine) (o : obj) (d n : N) : Prop :=
  x_vm s' = x_vm s /\ h_gen (x_heap s') = h_gen (x_heap s) /\ h_cap (x_heap s') = h_cap (x_heap s) /\
  len (memory s') = len (memory s) /\
  x_frames s' = x_frames s /\ x_alloc s' = x_alloc s /\ x_host s' = x_host s /\
  forall o' d' bs, stored s o' d' bs ->
    o_off o' + d' + len bs <= o_off o + d \/ o_off o + d + n <= o_off o' + d' -> stored s' o' d' bs.

(** Token [tok] in the code of assembly [a] stands for the field [f] (table 4), and for the type [t]
    (tables 2 and 1). *)
Definition denotes_field (s : vm) (a : aref) (tok : N) (f : field_info) : Prop :=
  exists ai r, nth_error (c_arena s) a = Some (Some ai) /\ r + 1 < 2 ^ 24 /\
    tok = 4 * 2 ^ 24 + (r + 1) /\ nth_error (a_fields ai) (N.to_nat r) = Some f.
Definition denotes_type (s : vm) (a : aref) (tok : N) (t : tref) : Prop :=
  exists ai r, nth_error (c_arena s) a = Some (Some ai) /\ r + 1 < 2 ^ 24 /\
    (tok = 2 * 2 ^ 24 + (r + 1) /\ nth_error (a_types ai) (N.to_nat r) = Some t \/
     tok = 1 * 2 ^ 24 + (r + 1) /\ nth_error (a_type_refs ai) (N.to_nat r) = Some t).

(** ** Arrays and strings *)

(** The object [o] is an array whose elements have the type [t] and the values [vs]. *)
Definition array_value (s : machine) (o : obj) (t : tref) (vs : list value) : Prop :=
  exists id ti eid l bss, List.length id = 4%nat /\
    nth_error (c_types (x_vm s)) t = Some ti /\ encodes 4 (ti_id ti) eid /\ encodes 8 (len vs) l /\
    Forall2 represents vs bss /\ stored s o 0 ([x02] ++ id ++ eid ++ l ++ concat bss).
(** The object [o] is a string with the given code units. *)
Definition string_value (s : machine) (o : obj) (text : list N) : Prop :=
  exists id l cs, List.length id = 4%nat /\ encodes 8 (len text) l /\ Forall2 (encodes 2) text cs /\
    stored s o 0 ([x04] ++ id ++ l ++ concat cs).

(** The list with the element at position [i] replaced. *)
Definition update {A} (l : list A) (i : nat) (x : A) : list A := firstn i l ++ x :: skipn (S i) l.

(** Token [tok] in the code of assembly [a] stands for a literal: its top byte is 0x70, and at the
    offset in its lower bytes the heap of user strings has the blob of the code units of [text] and
    one more byte. *)
Definition denotes_string (s : vm) (a : aref) (tok : N) (text : list N) : Prop :=
  exists ai before last after, nth_error (c_arena s) a = Some (Some ai) /\ len before < 2 ^ 24 /\
    tok = 0x70 * 2 ^ 24 + len before /\ Forall (fun u => u < 2 ^ 16) text /\ 2 * len text + 1 < 2 ^ 29 /\
    len (a_user_strings ai) < 2 ^ 63 /\
    a_user_strings ai = before ++ compress (2 * len text + 1) ++ (units_le text ++ [last]) ++ after.

(** Model of the heap of managed objects: /repo/clr_lite/src/vm/gc/*.rs.  File names below are
    relative to /repo/clr_lite/src/vm.

    The heap is one [Vec<u8>].  An object is a raw pointer into its buffer, made at allocation
    time; when the vector grows, its buffer is replaced by another one and earlier pointers
    dangle.  The model counts the buffers ([h_gen]) and an access through a pointer into an
    earlier buffer is undefined behaviour ([Ub]), as is an access outside the initialised part of
    the buffer.  Simplifications: a growth always counts as a move ([realloc] may happen to stay
    in place, but Rust gives no meaning to the old pointers then either); the alignment of
    accesses is not modelled (the headers are packed, so most field and element accesses are
    misaligned); running out of memory is not modelled; numbers are stored little-endian and
    [usize] has 64 bits. *)
From Coq Require Import NArith ZArith String List Bool.
From Coq.Strings Require Import Byte.
From Verif Require Import Base Runtime Value.
Import ListNotations.
Open Scope N_scope.

(** gc/mod.rs:21-24, [GcHeap]; [h_cap] is the capacity of the vector. *)
Record heap := mkHeap { h_gen : nat; h_cap : N; h_mem : list byte }.

(** The storage of frames (interpreter/mod.rs:21), see Interp.v; [k_cap] counts cells. *)
Record frames := mkFrames { k_gen : nat; k_cap : N; k_cells : list value }.

(** interpreter/mod.rs:18-23, [Interpreter], together with the runtime it refers to, the
    parameters that the host passed to the entry point ([x_host]) and
    [StackFrame::amount_allocated] of the running frame ([x_alloc], in cells).  The top of the
    operand stack is the head of the list. *)
Record machine := mkMachine {
  x_vm : vm; x_heap : heap; x_frames : frames; x_alloc : N; x_operands : list value;
  x_host : list value }.

Definition set_vm (s : machine) (v : vm) : machine :=
  mkMachine v (x_heap s) (x_frames s) (x_alloc s) (x_operands s) (x_host s).
Definition set_heap (s : machine) (h : heap) : machine :=
  mkMachine (x_vm s) h (x_frames s) (x_alloc s) (x_operands s) (x_host s).
Definition set_frames (s : machine) (k : frames) : machine :=
  mkMachine (x_vm s) (x_heap s) k (x_alloc s) (x_operands s) (x_host s).
Definition set_alloc (s : machine) (n : N) : machine :=
  mkMachine (x_vm s) (x_heap s) (x_frames s) n (x_operands s) (x_host s).
Definition set_operands (s : machine) (l : list value) : machine :=
  mkMachine (x_vm s) (x_heap s) (x_frames s) (x_alloc s) l (x_host s).
Definition set_host (s : machine) (l : list value) : machine :=
  mkMachine (x_vm s) (x_heap s) (x_frames s) (x_alloc s) (x_operands s) l.

(** Code that only touches the runtime. *)
Definition on_vm {A} (m : M vm A) : M machine A :=
  fun s => match m (x_vm s) with
           | Ok a v => Ok a (set_vm s v)
           | Err e v => Err e (set_vm s v)
           | Panic w => Panic w
           | Ub w => Ub w
           | NoFuel => NoFuel
           end.

(** ** Memory *)

(** Replace the bytes from [off] on. *)
Definition splice (off : N) (bs mem : list byte) : list byte :=
  firstn (N.to_nat off) mem ++ bs ++ skipn (N.to_nat (off + len bs)) mem.

(** Reading and writing [n] bytes at distance [d] from where a pointer points. *)
Definition load (o : obj) (d n : N) : M machine (list byte) :=
  fun s =>
    if negb (Nat.eqb (o_gen o) (h_gen (x_heap s))) then Ub "access to memory that has been freed"
    else if o_off o + d + n <=? len (h_mem (x_heap s)) then Ok (sub_list (o_off o + d) n (h_mem (x_heap s))) s
    else Ub "access outside the heap".
Definition store (o : obj) (d : N) (bs : list byte) : M machine unit :=
  fun s =>
    let h := x_heap s in
    if negb (Nat.eqb (o_gen o) (h_gen h)) then Ub "access to memory that has been freed"
    else if o_off o + d + len bs <=? len (h_mem h) then
      Ok tt (set_heap s (mkHeap (h_gen h) (h_cap h) (splice (o_off o + d) bs (h_mem h))))
    else Ub "access outside the heap".

(** ** The vector *)

(** [Vec::reserve]: at least doubles the capacity when it grows. *)
Definition vec_reserve (additional : N) : M machine unit :=
  fun s =>
    let h := x_heap s in
    if h_cap h - len (h_mem h) <? additional then
      let cap := N.max 8 (N.max (2 * h_cap h) (len (h_mem h) + additional)) in
      if 2 ^ 63 - 1 <? cap then Panic "capacity overflow"
      else Ok tt (set_heap s (mkHeap (S (h_gen h)) cap (h_mem h)))
    else Ok tt s.

(** [Vec::resize] with zeros. *)
Definition vec_resize (n : N) : M machine unit :=
  l <- (fun s => Ok (len (h_mem (x_heap s))) s) ;;
  if l <? n then
    vec_reserve (n - l) ;;;
    (fun s => let h := x_heap s in
              Ok tt (set_heap s (mkHeap (h_gen h) (h_cap h) (h_mem h ++ repeat x00 (N.to_nat (n - l))))))
  else
    (fun s => let h := x_heap s in
              Ok tt (set_heap s (mkHeap (h_gen h) (h_cap h) (firstn (N.to_nat n) (h_mem h))))).

(** gc/mod.rs:34-41, [ensure_size]; [collect] (99) does nothing. *)
Definition ensure_size (p : profile) (size : N) : M machine unit :=
  h <- (fun s => Ok (x_heap s) s) ;;
  n <- ovf (u_add p 64 (len (h_mem h)) size) ;;
  if h_cap h <? n then vec_reserve (h_cap h) else ret tt.

(** gc/mod.rs:45-53, 62-69 and 81-88: making room for [size] bytes of zeros. *)
Definition make_room (p : profile) (size : N) : M machine obj :=
  ensure_size p size ;;;
  base <- (fun s => Ok (len (h_mem (x_heap s))) s) ;;
  n <- ovf (u_add p 64 base size) ;;
  vec_resize n ;;;
  (fun s => Ok (mkObj (h_gen (x_heap s)) base) s).

(** ** Headers

    gc/object.rs:16-21, flags (one byte) and type (four bytes); gc/array.rs:8-14, then the element
    type (four) and the length (eight); gc/string.rs:5-10, then the length (eight). *)
Definition object_header : N := 5.
Definition array_header : N := 17.
Definition string_header : N := 13.

Definition is_array : N := 2.
Definition is_string : N := 4.

(** [header.flags |= f]. *)
Definition add_flag (o : obj) (f : N) : M machine unit :=
  b <- load o 0 1 ;; store o 0 (le_enc 1 (N.lor (le_dec b) f)).

(** [t.id()]. *)
Definition id_of (t : tref) : M vm N := ti <- the_type t ;; ret (ti_id ti).

(** ** Allocation *)

(** gc/mod.rs:43-58, [alloc]. *)
Definition alloc (fuel : nat) (p : profile) (t : tref) : M machine obj :=
  n <- on_vm (type_size fuel p t) ;;
  size <- ovf (u_add p 64 object_header n) ;;
  o <- make_room p size ;;
  id <- on_vm (id_of t) ;;
  store o 1 (le_enc 4 id) ;;;
  ret o.

(** gc/mod.rs:60-77, [alloc_array]. *)
Definition alloc_array (fuel : nat) (p : profile) (element : tref) (length : N) : M machine obj :=
  n <- on_vm (type_size fuel p element) ;;
  n <- ovf (u_mul p 64 n length) ;;
  size <- ovf (u_add p 64 array_header n) ;;
  o <- make_room p size ;;
  add_flag o is_array ;;;
  t <- on_vm (array_of p element) ;;
  id <- on_vm (id_of t) ;;
  store o 1 (le_enc 4 id) ;;;
  id <- on_vm (id_of element) ;;
  store o 5 (le_enc 4 id) ;;;
  store o 9 (le_enc 8 length) ;;;
  ret o.

(** gc/mod.rs:79-97, [alloc_string]; the text is given as UTF-16 code units. *)
Definition alloc_string (p : profile) (text : list N) : M machine obj :=
  n <- ovf (u_mul p 64 2 (len text)) ;;
  size <- ovf (u_add p 64 string_header n) ;;
  o <- make_room p size ;;
  add_flag o is_string ;;;
  t <- on_vm (named "System.String") ;;
  id <- on_vm (id_of t) ;;
  store o 1 (le_enc 4 id) ;;;
  store o 5 (le_enc 8 (len text)) ;;;
  store o string_header (concat (map (le_enc 2) text)) ;;;
  ret o.

(** ** Objects *)

Definition flags_of (o : obj) : M machine N := b <- load o 0 1 ;; ret (le_dec b).

(** gc/object.rs:64-70, [as_array]; 72-78, [as_string]. *)
Definition as_array (o : obj) : M machine bool := f <- flags_of o ;; ret (has f is_array).
Definition as_string (o : obj) : M machine bool := f <- flags_of o ;; ret (has f is_string).

(** gc/object.rs:28-38, [as_raw_object], with the [unwrap] of 81 and 85. *)
Definition raw_object (o : obj) : M machine unit :=
  f <- flags_of o ;;
  if N.land f (N.lor is_array is_string) =? 0 then ret tt
  else panic "called `Option::unwrap()` on a `None` value".

(** gc/object.rs:52-54, [type_of]: the position in the list of types. *)
Definition type_of (o : obj) : M machine tref :=
  b <- load o 1 4 ;;
  (fun s => if le_dec b <? len (c_types (x_vm s)) then Ok (N.to_nat (le_dec b)) s else Panic "index out of bounds").

(** What can be stored: the ten primitive types (and object references in arrays). *)
Inductive held := HInt (t : ity) | HF32 | HF64 | HObject.
Definition held_size (h : held) : N :=
  match h with HInt t => ibits t / 8 | HF32 => 4 | HF64 | HObject => 8 end.

(** The bytes of a number, and the number with given bytes. *)
Definition held_bytes (v : value) : option (held * list byte) :=
  match v with
  | VInt t x => Some (HInt t, le_enc (N.to_nat (ibits t / 8)) (to_unsigned (ibits t) x))
  | VF32 b => Some (HF32, le_enc 4 b)
  | VF64 b => Some (HF64, le_enc 8 b)
  | VObject _ => None
  end.
Definition int_of_bytes (t : ity) (bs : list byte) : Z :=
  if isigned t then to_signed (ibits t) (le_dec bs) else Z.of_N (le_dec bs).
Definition held_value (h : held) (bs : list byte) : option value :=
  match h with
  | HInt t => Some (VInt t (int_of_bytes t bs))
  | HF32 => Some (VF32 (le_dec bs))
  | HF64 => Some (VF64 (le_dec bs))
  | HObject => None
  end.

(** gc/raw_object.rs:15-31, [RawObject::set], through gc/object.rs:80-82: the width written is that
    of the value. *)
Definition set_field (o : obj) (f : field_info) (v : value) : M machine unit :=
  raw_object o ;;;
  match held_bytes v with
  | Some (_, bs) => store o (object_header + f_offset f) bs
  | None => panic "not implemented"
  end.

(** gc/raw_object.rs:38-61: the types that are tried, in order. *)
Definition primitive_order : list (held * (primitives -> tref)) :=
  [(HInt I8, pt_sbyte); (HInt U8, pt_byte); (HInt I16, pt_short); (HInt U16, pt_ushort);
   (HInt I32, pt_int); (HInt U32, pt_uint); (HInt I64, pt_long); (HInt U64, pt_ulong);
   (HF32, pt_float); (HF64, pt_double)].
Fixpoint held_as (l : list (held * (primitives -> tref))) (q : primitives) (t : tref) : M vm (option held) :=
  match l with
  | [] => ret None
  | (h, pt) :: l' => b <- type_eq t (pt q) ;; if b then ret (Some h) else held_as l' q t
  end.

(** gc/raw_object.rs:33-63, [RawObject::get], through gc/object.rs:84-86. *)
Definition get_field_value (o : obj) (f : field_info) : M machine value :=
  raw_object o ;;;
  q <- on_vm the_primitives ;;
  h <- on_vm (held_as primitive_order q (f_type f)) ;;
  match h with
  | None => panic "not implemented"
  | Some h =>
      bs <- load o (object_header + f_offset f) (held_size h) ;;
      match held_value h bs with Some v => ret v | None => panic "not implemented" end
  end.

(** ** Arrays *)

(** reflection/type.rs:552-619, [HasManagedType]. *)
Definition managed_type (h : held) (q : primitives) : tref :=
  match h with
  | HInt I8 => pt_sbyte q | HInt U8 => pt_byte q | HInt I16 => pt_short q | HInt U16 => pt_ushort q
  | HInt I32 => pt_int q | HInt U32 => pt_uint q | HInt I64 => pt_long q | HInt U64 => pt_ulong q
  | HF32 => pt_float q | HF64 => pt_double q | HObject => pt_object q
  end.

(** gc/array.rs:157-187, [as_slice] and [as_mut_slice]: the length of the slice, or [None] for
    [TypeMismatch].  A slice that is not wholly inside the heap is undefined behaviour. *)
Definition array_slice (o : obj) (h : held) : M machine (option N) :=
  q <- on_vm the_primitives ;;
  id <- on_vm (id_of (managed_type h q)) ;;
  e <- load o 5 4 ;;
  if le_dec e =? id then
    l <- load o 9 8 ;;
    load o array_header (le_dec l * held_size h) ;;;
    ret (Some (le_dec l))
  else ret None.

(** [arr[i]] on such a slice of [n] elements. *)
Definition slice_get (o : obj) (h : held) (n i : N) : M machine (list byte) :=
  if i <? n then load o (array_header + i * held_size h) (held_size h) else panic "index out of bounds".
(** [arr[i] = x]. *)
Definition slice_set (o : obj) (h : held) (n i : N) (bs : list byte) : M machine unit :=
  if i <? n then store o (array_header + i * held_size h) bs else panic "index out of bounds".

(** gc/array.rs:51-132, [Array::set], not used by the interpreter.  Storing a reference is not
    modelled beyond the forming of the slice. *)
Definition array_set (o : obj) (i : N) (v : value) : M machine unit :=
  l <- load o 9 8 ;;
  if le_dec l <=? i then fail "IndexOutOfRange"
  else
    on_vm the_primitives ;;;
    match held_bytes v with
    | Some (h, bs) =>
        n <- array_slice o h ;;
        match n with
        | None => fail "TypeMismatch"
        | Some _ => store o (array_header + i * held_size h) bs
        end
    | None =>
        n <- array_slice o HObject ;;
        match n with
        | None => fail "TypeMismatch"
        | Some _ => panic "model: storing references in arrays"
        end
    end.

(** ** Strings *)

(** gc/string.rs:29-31, [data]. *)
Definition string_data (o : obj) : M machine (list N) :=
  l <- load o 5 8 ;;
  bs <- load o string_header (2 * le_dec l) ;;
  ret (map le_dec (chunks 2 (N.to_nat (le_dec l)) bs)).

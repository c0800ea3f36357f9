(** Model of the runtime's registries and of the reflection objects:
    /repo/clr_lite/src/vm/mod.rs and /repo/clr_lite/src/vm/reflection/*.rs.  File names below
    are relative to /repo/clr_lite/src/vm.

    Identity.  A [Type] is an [Rc] to a [TypeInternal]; every [TypeInternal] is pushed on the
    runtime's list of types right after it is made (reflection/type.rs:32-50 and 281-299) and is
    never removed, so a [Type] is represented by its position in that list ([tref]).  The
    mutable cells of a type are updated in place.  [Field], [Method] and [Parameter] objects
    never change once they have been returned by their [load] function, and are represented by
    values.  An [Assembly] is represented by its position in an arena ([aref]); a slot of the
    arena is emptied when the last strong reference to the assembly goes away, which only
    happens when loading it fails (see Loader.v).  The [Weak] back references to the runtime,
    to types and to methods always upgrade, because the runtime owns them.  The [RefCell]s are
    never borrowed in conflict; this was checked by reading and is not modelled. *)
From Coq Require Import NArith String List Bool.
From Coq.Strings Require Import Byte.
From Verif Require Import Base BinaryReader Tables Blob Metadata.
Import ListNotations.
Open Scope N_scope.

Definition name := list byte.
Definition tref := nat.
Definition aref := nat.

(** reflection/type.rs:509-515. *)
Inductive type_kind := KClass | KInterface | KStruct | KEnum | KArray.

(** reflection/field.rs:70-78. *)
Record field_info := mkField {
  f_name : name; f_type : tref; f_declaring : tref; f_static : bool; f_offset : N }.

(** reflection/parameter.rs: name, index and type. *)
Record param_info := mkParam { pa_name : name; pa_index : N; pa_type : tref }.

(** reflection/method_body.rs:349-355. *)
Inductive clause_kind := CkCatch | CkFilter | CkFinally | CkFault.

(** reflection/method_body.rs:269-277. *)
Record clause := mkClause {
  cl_kind : clause_kind; cl_try_offset : N; cl_try_length : N; cl_handler_offset : N;
  cl_handler_length : N; cl_catch : option tref; cl_filter : option N }.

(** reflection/method_body.rs:13-19. *)
Record body := mkBody {
  b_code : list byte; b_max_stack : N; b_locals : list tref; b_init_locals : bool;
  b_clauses : list clause }.

(** internal_method/*.rs: the functions that [load_internal_methods] registers. *)
Inductive internal := ConsoleWrite | StringGetItem | StringGetLength.

(** reflection/method.rs:214-224; [PInvoke] is never built. *)
Inductive implementation := INone | IIL (b : body) | IInternal (i : internal).

(** reflection/method.rs:199-210. *)
Record method_info := mkMethod {
  mt_name : name; mt_declaring : tref; mt_return : tref; mt_params : list param_info;
  mt_impl : implementation; mt_static : bool; mt_virtual : bool; mt_abstract : bool }.

(** reflection/type.rs:530-546; the hash maps are association lists, latest entry first. *)
Record type_info := mkType {
  ti_assembly : aref; ti_id : N; ti_name : name; ti_namespace : name; ti_full_name : name;
  ti_kind : option type_kind; ti_abstract : bool; ti_base : option tref;
  ti_fields : list field_info; ti_methods : list method_info; ti_interfaces : list tref;
  ti_field_map : list (name * field_info); ti_method_map : list (name * method_info) }.

(** reflection/assembly.rs:256-269. *)
Record assembly_info := mkAssembly {
  a_name : name; a_types : list tref; a_entry : option method_info; a_user_strings : list byte;
  a_method_defs : list method_info; a_method_refs : list method_info;
  a_fields : list field_info; a_type_refs : list tref }.

(** mod.rs:229-242, [PrimitiveTypes]. *)
Record primitives := mkPrimitives {
  pt_sbyte : tref; pt_byte : tref; pt_short : tref; pt_ushort : tref; pt_int : tref;
  pt_uint : tref; pt_long : tref; pt_ulong : tref; pt_float : tref; pt_double : tref;
  pt_object : tref }.

(** mod.rs:216-227, [ClrInternal]; [c_arena] holds the assemblies themselves.  The output is
    kept as the list of its characters (Unicode scalar values).  The table of internal methods
    never changes and is [internal_method] below. *)
Record vm := mkVm {
  c_paths : list name; c_assemblies : list aref; c_arena : list (option assembly_info);
  c_types : list type_info; c_type_map : list (name * tref); c_next_id : N;
  c_primitives : option primitives; c_output : list N }.

(** ** Updates *)

Definition set_types (s : vm) (ts : list type_info) : vm :=
  mkVm (c_paths s) (c_assemblies s) (c_arena s) ts (c_type_map s) (c_next_id s) (c_primitives s) (c_output s).
Definition set_arena (s : vm) (a : list (option assembly_info)) : vm :=
  mkVm (c_paths s) (c_assemblies s) a (c_types s) (c_type_map s) (c_next_id s) (c_primitives s) (c_output s).
Definition set_next_id (s : vm) (n : N) : vm :=
  mkVm (c_paths s) (c_assemblies s) (c_arena s) (c_types s) (c_type_map s) n (c_primitives s) (c_output s).
Definition set_assemblies (s : vm) (l : list aref) : vm :=
  mkVm (c_paths s) l (c_arena s) (c_types s) (c_type_map s) (c_next_id s) (c_primitives s) (c_output s).
Definition set_primitives (s : vm) (q : primitives) : vm :=
  mkVm (c_paths s) (c_assemblies s) (c_arena s) (c_types s) (c_type_map s) (c_next_id s) (Some q) (c_output s).
Definition set_output (s : vm) (o : list N) : vm :=
  mkVm (c_paths s) (c_assemblies s) (c_arena s) (c_types s) (c_type_map s) (c_next_id s) (c_primitives s) o.

(** Replace the element at a position (no effect outside the list). *)
Fixpoint update {A} (l : list A) (i : nat) (f : A -> A) : list A :=
  match l, i with
  | [], _ => []
  | x :: l', O => f x :: l'
  | x :: l', S i' => x :: update l' i' f
  end.

(** Change one type in place. *)
Definition modify_type (t : tref) (f : type_info -> type_info) : M vm unit :=
  fun s => Ok tt (set_types s (update (c_types s) t f)).
(** Change one assembly in place. *)
Definition modify_assembly (a : aref) (f : assembly_info -> assembly_info) : M vm unit :=
  fun s => Ok tt (set_arena s (update (c_arena s) a (option_map f))).

(** Dereferencing a [Type]; see the remark on identity above. *)
Definition the_type (t : tref) : M vm type_info :=
  fun s => match nth_error (c_types s) t with
           | Some ti => Ok ti s
           | None => Panic "model: no such type"
           end.

(** reflection/type.rs:328-330, [Type::assembly]: the [unwrap] panics when the assembly has been
    dropped. *)
Definition the_assembly (a : aref) : M vm assembly_info :=
  fun s => match nth_error (c_arena s) a with
           | Some (Some ai) => Ok ai s
           | _ => Panic "called `Option::unwrap()` on a `None` value"
           end.

(** Code that does not touch the runtime. *)
Definition lift {S A} (m : M unit A) : M S A :=
  fun s => match m tt with
           | Ok a _ => Ok a s
           | Err e _ => Err e s
           | Panic w => Panic w
           | Ub w => Ub w
           | NoFuel => NoFuel
           end.

(** Code that uses its own reader, which is handed back. *)
Definition with_reader {S A} (r : reader) (m : M reader A) : M S (A * reader) :=
  fun s => match m r with
           | Ok a r' => Ok (a, r') s
           | Err e _ => Err e s
           | Panic w => Panic w
           | Ub w => Ub w
           | NoFuel => NoFuel
           end.

(** [iter().fold], in code that can panic. *)
Fixpoint fold_m {S A B} (f : A -> B -> M S A) (a : A) (l : list B) : M S A :=
  match l with
  | [] => ret a
  | x :: l' => a' <- f a x ;; fold_m f a' l'
  end.

(** [for i in start..end { f(i)?; }] with [n] iterations. *)
Fixpoint range_m {S} (n : nat) (i : N) (f : N -> M S unit) : M S unit :=
  match n with
  | O => ret tt
  | S n' => f i ;;; range_m n' (i + 1) f
  end.

(** ** mod.rs *)

(** mod.rs:126-128, [get_type]. *)
Definition get_type (n : name) : M vm (option tref) :=
  fun s => Ok (map_get bytes_eqb n (c_type_map s)) s.

(** mod.rs:168-173, [next_type_id]; [TypeID] is [u32] (reflection/type.rs:523). *)
Definition next_type_id (p : profile) : M vm N :=
  fun s => match u_add p 32 (c_next_id s) 1 with
           | Some n => Ok (c_next_id s) (set_next_id s n)
           | None => Panic "attempt to add with overflow"
           end.

(** mod.rs:285-288, [add_type]; the result is the new type. *)
Definition add_type (ti : type_info) : M vm tref :=
  fun s =>
    let t := List.length (c_types s) in
    Ok t (mkVm (c_paths s) (c_assemblies s) (c_arena s) (c_types s ++ [ti])
            (map_put (ti_full_name ti) t (c_type_map s)) (c_next_id s) (c_primitives s) (c_output s)).

(** mod.rs:290-292, [primitives]. *)
Definition the_primitives : M vm primitives :=
  fun s => match c_primitives s with
           | Some q => Ok q s
           | None => Panic "called `Option::unwrap()` on a `None` value"
           end.

(** internal_method/System_Console.rs:16-21, System_String.rs:14-20, mod.rs:183-185: the table
    of internal methods. *)
Definition internal_method (n : name) : option internal :=
  if bytes_eqb n (bytes_of_string "Void System.Console.Write(System.String)") then Some ConsoleWrite
  else if bytes_eqb n (bytes_of_string "Char System.String.get_Item(System.Int32)") then Some StringGetItem
  else if bytes_eqb n (bytes_of_string "Int32 System.String.get_Length()") then Some StringGetLength
  else None.

(** ** Names *)

(** [metadata.strings().get(h)].  The cache of the heap does not affect the answer
    (C12, PropsBlob.v), so it is not threaded through the loader. *)
Definition string_at (md : metadata) (h : N) : option name :=
  match strings_get h (strings_new (m_strings md)) with
  | Ok o _ => o
  | _ => None
  end.

(** reflection/type.rs:26-30 and the many copies of it. *)
Definition full_name (n ns : name) : name :=
  match ns with
  | [] => n
  | _ => ns ++ bytes_of_string "." ++ n
  end.

(** reflection/type.rs:199-226, [type_def_or_ref_name]. *)
Definition type_def_or_ref_name (p : profile) (md : metadata) (h : row_ref) : M vm (option name) :=
  ' (nh, nsh) <- match ref_table h with
                 | TTypeDef =>
                     d <- lift (fun _ => table_index p (tb_type_def (m_tables md)) (ref_index h)) ;;
                     ret (td_name d, td_namespace d)
                 | TTypeRef =>
                     d <- lift (fun _ => table_index p (tb_type_ref (m_tables md)) (ref_index h)) ;;
                     ret (tr_name d, tr_namespace d)
                 | _ => panic "not implemented: Inheriting from generic types not yet supported"
                 end ;;
  match string_at md nh with
  | None => ret None
  | Some n => match string_at md nsh with
              | None => ret None
              | Some ns => ret (Some (full_name n ns))
              end
  end.

(** ** reflection/type.rs *)

(** 452-456: equality of types is equality of full names. *)
Definition type_eq (t u : tref) : M vm bool :=
  a <- the_type t ;;
  b <- the_type u ;;
  ret (bytes_eqb (ti_full_name a) (ti_full_name b)).

(** [clr.get_type("...").unwrap()]. *)
Definition named (s : string) : M vm tref :=
  o <- get_type (bytes_of_string s) ;; unwrap o.

(** 274-302, [get_or_create_array_type]; 304-306, [array_of]. *)
Definition array_of (p : profile) (element : tref) : M vm tref :=
  e <- the_type element ;;
  let fn := ti_full_name e ++ bytes_of_string "[]" in
  o <- get_type fn ;;
  match o with
  | Some t => ret t
  | None =>
      id <- next_type_id p ;;
      base <- get_type (bytes_of_string "System.Array") ;;
      add_type (mkType (ti_assembly e) id (ti_name e ++ bytes_of_string "[]") (ti_namespace e) fn
                  (Some KArray) false base [] [] [] [] [])
  end.

(** 228-272, [get_type_for_element_type]. *)
Fixpoint type_for_element (p : profile) (md : metadata) (e : element_type) : M vm tref :=
  match e with
  | EVoid => named "System.Void"
  | EBool => named "System.Boolean"
  | EChar => named "System.Char"
  | ESByte => named "System.SByte"
  | EByte => named "System.Byte"
  | EShort => named "System.Int16"
  | EUShort => named "System.UInt16"
  | EInt => named "System.Int32"
  | EUInt => named "System.UInt32"
  | ELong => named "System.Int64"
  | EULong => named "System.UInt64"
  | EFloat => named "System.Single"
  | EDouble => named "System.Double"
  | EString => named "System.String"
  | EPointer _ => panic "not implemented: Pointers not yet supported"
  | EReference _ => panic "not implemented: References not yet supported"
  | EValueType h | EClass h =>
      o <- type_def_or_ref_name p md h ;;
      n <- ok_or o "Unable to locate type" ;;
      o <- get_type n ;;
      ok_or o "Unable to locate type"
  | ETypeGenericParam _ => panic "not implemented: Generics not yet supported"
  | EArray _ _ => panic "not implemented: Non-vector arrays not yet supported"
  | EGeneric _ _ => panic "not implemented: Generics not yet supported"
  | ETypedReference => panic "not implemented: Typed references not yet supported"
  | EIntPtr => named "System.IntPtr"
  | EUIntPtr => named "System.UIntPtr"
  | EFnPtr => panic "not implemented: Function pointers not yet supported"
  | EObject => named "System.Object"
  | ESzArray et =>
      t <- type_for_element p md et ;;
      array_of p t
  | EMethodGenericParam _ => panic "not implemented: Generics not yet supported"
  | EVarargSentinel => fail "Invalid element type"
  end.

(** [self.interfaces().contains(&other)], with the equality above. *)
Fixpoint contains_type (l : list tref) (other : tref) : M vm bool :=
  match l with
  | [] => ret false
  | t :: l' => b <- type_eq t other ;; if b then ret true else contains_type l' other
  end.

(** 386-396, [instance_of]; [fuel] bounds the length of the walk along the bases. *)
Fixpoint instance_of (fuel : nat) (t other : tref) : M vm bool :=
  match fuel with
  | O => nofuel
  | S f =>
      b <- type_eq t other ;;
      if b then ret true
      else
        ti <- the_type t ;;
        match ti_base ti with
        | Some base => instance_of f base other
        | None => contains_type (ti_interfaces ti) other
        end
  end.

(** 398-401, [is_reference_type]. *)
Definition is_reference_type (fuel : nat) (t : tref) : M vm bool :=
  v <- named "System.ValueType" ;;
  b <- instance_of fuel t v ;;
  ret (negb b).

(** 406-429: the primitive types in the order in which they are tried. *)
Definition primitive_sizes : list (string * N) :=
  [("System.Boolean"%string, 1); ("System.Char"%string, 2); ("System.SByte"%string, 1);
   ("System.Byte"%string, 1); ("System.Int16"%string, 2); ("System.UInt16"%string, 2);
   ("System.Int32"%string, 4); ("System.UInt32"%string, 4); ("System.Int64"%string, 8);
   ("System.UInt64"%string, 8); ("System.Single"%string, 4); ("System.Double"%string, 8)].

(** 406-429: the chain of comparisons. *)
Fixpoint try_sizes (l : list (string * N)) (t : tref) : M vm (option N) :=
  match l with
  | [] => ret None
  | (s, n) :: l' =>
      u <- named s ;;
      b <- type_eq t u ;;
      if b then ret (Some n) else try_sizes l' t
  end.

(** 404-449, [size]. *)
Fixpoint type_size (fuel : nat) (p : profile) (t : tref) : M vm N :=
  match fuel with
  | O => nofuel
  | S f =>
      o <- try_sizes primitive_sizes t ;;
      match o with
      | Some n => ret n
      | None =>
          ti <- the_type t ;;
          size <- fold_m (fun a fi =>
                    r <- is_reference_type f (f_type fi) ;;
                    n <- (if r then ret 8 else type_size f p (f_type fi)) ;;
                    ovf (u_add p 64 a n))
                  0 (filter (fun fi => negb (f_static fi)) (ti_fields ti)) ;;
          match ti_base ti with
          | Some base => n <- type_size f p base ;; ovf (u_add p 64 size n)
          | None => ret size
          end
      end
  end.

(** 339-345, [all_fields]. *)
Fixpoint all_fields (fuel : nat) (t : tref) : M vm (list field_info) :=
  match fuel with
  | O => nofuel
  | S f =>
      ti <- the_type t ;;
      match ti_base ti with
      | Some base => l <- all_fields f base ;; ret (ti_fields ti ++ l)
      | None => ret (ti_fields ti)
      end
  end.

(** 357-366, [all_methods]. *)
Fixpoint all_methods (fuel : nat) (t : tref) : M vm (list method_info) :=
  match fuel with
  | O => nofuel
  | S f =>
      ti <- the_type t ;;
      l <- match ti_base ti with Some base => all_methods f base | None => ret [] end ;;
      ls <- map_m (all_methods f) (ti_interfaces ti) ;;
      ret (ti_methods ti ++ l ++ concat ls)
  end.

(** 347-349, [get_field]. *)
Definition get_field (t : tref) (n : name) : M vm (option field_info) :=
  ti <- the_type t ;; ret (map_get bytes_eqb n (ti_field_map ti)).

(** 368-370, [get_method]. *)
Definition get_method (t : tref) (n : name) : M vm (option method_info) :=
  ti <- the_type t ;; ret (map_get bytes_eqb n (ti_method_map ti)).

(** ** reflection/assembly.rs *)

(** [v.get(token.index() - 1)]: the subtraction is on [usize]. *)
Definition get_row {A} (p : profile) (l : list A) (tok : N) : M vm (option A) :=
  match u_sub p 64 (token_index tok) 1 with
  | None => panic "attempt to subtract with overflow"
  | Some i => ret (nth_error l (N.to_nat i))
  end.

(** 204-212, [resolve_method]. *)
Definition resolve_method (p : profile) (a : aref) (tok : N) : M vm (option method_info) :=
  ai <- the_assembly a ;;
  if token_table tok =? table_id TMethodDef then get_row p (a_method_defs ai) tok
  else if token_table tok =? table_id TMemberRef then get_row p (a_method_refs ai) tok
  else ret None.

(** 214-220, [resolve_field]. *)
Definition resolve_field (p : profile) (a : aref) (tok : N) : M vm (option field_info) :=
  ai <- the_assembly a ;;
  if token_table tok =? table_id TField then get_row p (a_fields ai) tok else ret None.

(** 222-230, [resolve_type]. *)
Definition resolve_type (p : profile) (a : aref) (tok : N) : M vm (option tref) :=
  ai <- the_assembly a ;;
  if token_table tok =? table_id TTypeDef then get_row p (a_types ai) tok
  else if token_table tok =? table_id TTypeRef then get_row p (a_type_refs ai) tok
  else ret None.

(** 232-241, [get_string]; the two [ok()?] turn errors into [None]. *)
Definition get_string (p : profile) (a : aref) (tok : N) : M vm (option (list N)) :=
  ai <- the_assembly a ;;
  if token_table tok =? 0x70 then
    d <- lift (slice_from (a_user_strings ai) (token_index tok)) ;;
    o <- lift (try_m (fun _ => blob_reader_new p d)) ;;
    match o with
    | None => ret None
    | Some r => lift (try_m (on_reader r (read_utf16_str p)))
    end
  else ret None.

(** The [RefCell] borrows of the runtime (clr_lite/src/vm), function by function.

    The rest of the model leaves the cells out.  Here each function is reduced to what it does with
    them: which guard is taken when, how long it lives, and which functions are called meanwhile.
    Conditions, loops and the objects that are looked up are left open, so a function here has at least
    the executions that the one in Rust has; an early return is an execution that takes no more guards.
    A guard that is a temporary lives until the end of its statement, and one in the condition of an
    [if] until the end of the condition. *)
From Coq Require Import List.
From Verif Require Import SpecBorrow.
Import ListNotations.

(** The cells; the numbers stand for objects.
    vm/mod.rs:22 ([ClrLite]), reflection/type.rs:530-546 ([TypeInternal]),
    reflection/assembly.rs:256-269 ([AssemblyInternal]), reflection/method.rs:199-210 ([MethodInternal]),
    interpreter/mod.rs:17-22 ([Interpreter]). *)
Inductive cell :=
| Registry
| Kind (t : nat) | Base (t : nat) | FieldList (t : nat) | MethodList (t : nat) | InterfaceList (t : nat)
| FieldMap (t : nat) | MethodMap (t : nat)
| AssemblyTypes (a : nat) | EntryPoint (a : nat) | AssemblyMethods (a : nat) | AssemblyFields (a : nat)
| Params (m : nat)
| Heap (i : nat).

(** The object that a cell is part of. *)
Definition owner (c : cell) : option nat :=
  match c with
  | Registry => None
  | Kind t | Base t | FieldList t | MethodList t | InterfaceList t | FieldMap t | MethodMap t => Some t
  | AssemblyTypes a | EntryPoint a | AssemblyMethods a | AssemblyFields a => Some a
  | Params m => Some m
  | Heap i => Some i
  end.

(** The functions that borrow, with the objects they are called on. *)
Inductive fn :=
| new_runtime | load_assembly | load_assembly_from_path | load_assembly_from_data | load_builtin_assemblies
| get_type | execute | next_type_id | get_internal_method | output
| assembly_load | entry_point (a : nat) | resolve_method (a : nat) | resolve_field (a : nat) | resolve_type (a : nat)
| type_load (t : nat) | resolve (t a : nat) | resolve_base (t : nat) | resolve_kind (t : nat) | resolve_fields (t a : nat) | resolve_methods (t : nat)
| get_type_for_element_type | get_or_create_array_type | array_of | base (t : nat) | all_fields (t : nat) | get_field (t : nat)
| all_methods (t : nat) | get_method (t : nat) | kind (t : nat) | instance_of (t : nat) | is_reference_type (t : nat) | size (t : nat)
| managed_type
| field_load | method_load | method_body_load | exception_clause_new | method_display (m : nat)
| alloc (i : nat) | alloc_array (i : nat) | alloc_string (i : nat)
| raw_data | type_of | raw_object_get | array_set | as_slice
| interpreter_execute (i : nat) | frame_execute (i : nat) | method_call (i : nat) | console_write.

Inductive code :=
| Done
| Then (a b : code)
| Either (a b : code)
| Many (a : code)
| Any (k : nat -> code)                   (* some object that is there *)
| New (k : nat -> code)                   (* an object made now *)
| Hold (m : mode) (c : cell) (a : code)   (* a guard that lives while [a] runs *)
| Call (f : fn).

Declare Scope code_scope.
Delimit Scope code_scope with code.
Bind Scope code_scope with code.
Local Notation "a ;; b" := (Then a b) (at level 61, right associativity) : code_scope.
Local Notation "a || b" := (Either a b) : code_scope.
Local Open Scope code_scope.
Definition touch (m : mode) (c : cell) : code := Hold m c Done.

Definition body (f : fn) : code :=
  match f with
  (* vm/mod.rs:42-46 *)
  | new_runtime => Call load_builtin_assemblies
  (* vm/mod.rs:60-67: the guard ends with the statement that makes [path] *)
  | load_assembly => touch Shared Registry ;; Call load_assembly_from_path
  (* vm/mod.rs:69-72 *)
  | load_assembly_from_path => Call load_assembly_from_data
  (* vm/mod.rs:74-76 *)
  | load_assembly_from_data => Call assembly_load
  (* vm/mod.rs:78-124 *)
  | load_builtin_assemblies => Many (Call load_assembly_from_data) ;; Many (Call get_type) ;; touch Exclusive Registry
  (* vm/mod.rs:126-128 *)
  | get_type => touch Shared Registry
  (* vm/mod.rs:130-166: the interpreter and its heap are made for the call *)
  | execute => New (fun i => Call (interpreter_execute i)) ;; (Done || Call raw_data)
  (* vm/mod.rs:168-173 *)
  | next_type_id => touch Exclusive Registry
  (* vm/mod.rs:183-185 *)
  | get_internal_method => touch Shared Registry
  (* vm/mod.rs:187-189 *)
  | output => touch Shared Registry
  (* reflection/assembly.rs:13-188.  The types of the assembly are new, as are those found by the names
     of its type rows, which the load registered last; they share one number, which can only make
     guards meet that would not. *)
  | assembly_load =>
      Many (touch Shared Registry ;; (Done || Call load_assembly)) ;;
      Many (Call get_type ;; Any (fun t => Call (get_method t))) ;;
      Many (Call get_type) ;;
      New (fun a => New (fun t =>
        Many (Call (type_load t)) ;;
        Many (Call (resolve t a)) ;;
        Many (Call get_type ;; Call get_type ;; touch Exclusive (InterfaceList t)) ;;
        touch Exclusive (AssemblyTypes a) ;;
        Hold Shared (AssemblyTypes a) (Many (Hold Shared (MethodList t) Done)) ;;
        touch Exclusive (AssemblyMethods a) ;;
        (Done || Call (resolve_method a) ;; touch Exclusive (EntryPoint a)))) ;;
      touch Exclusive Registry
  (* reflection/assembly.rs:200-202 *)
  | entry_point a => touch Shared (EntryPoint a)
  (* reflection/assembly.rs:204-212 *)
  | resolve_method a => Done || touch Shared (AssemblyMethods a)
  (* reflection/assembly.rs:214-220 *)
  | resolve_field a => Done || touch Shared (AssemblyFields a)
  (* reflection/assembly.rs:222-230 *)
  | resolve_type a => Done || touch Shared (AssemblyTypes a)
  (* reflection/type.rs:15-53 *)
  | type_load t => Call next_type_id ;; touch Exclusive Registry
  (* reflection/type.rs:57-69 *)
  | resolve t a => Call (resolve_base t) ;; Call (resolve_kind t) ;; Call (resolve_fields t a) ;; Call (resolve_methods t)
  (* reflection/type.rs:71-92 *)
  | resolve_base t => Call get_type ;; touch Exclusive (Base t)
  (* reflection/type.rs:94-118 *)
  | resolve_kind t => Call (base t) ;; Call (base t) ;; touch Exclusive (Kind t)
  (* reflection/type.rs:120-167: three guards are held while a field is loaded, none while its size is
     computed *)
  | resolve_fields t a => touch Exclusive (FieldList t) ;; Call (base t) ;; Any (fun b => Call (size b)) ;;
      Many (Hold Exclusive (FieldList t) (Hold Exclusive (FieldMap t) (Hold Exclusive (AssemblyFields a) (Call field_load))) ;;
            Any (fun u => Call (size u)))
  (* reflection/type.rs:169-197: both guards are held while the methods are loaded *)
  | resolve_methods t => Hold Exclusive (MethodList t) (Hold Exclusive (MethodMap t) (Many (Call method_load)))
  (* reflection/type.rs:228-272 *)
  | get_type_for_element_type => Done || Call get_type || Call get_type_for_element_type ;; Call get_or_create_array_type
  (* reflection/type.rs:274-302 *)
  | get_or_create_array_type => Call get_type ;; Call next_type_id ;; Call get_type ;; touch Exclusive Registry
  (* reflection/type.rs:304-306 *)
  | array_of => Call get_or_create_array_type
  (* reflection/type.rs:324-326 *)
  | base t => touch Shared (Base t)
  (* reflection/type.rs:339-345 *)
  | all_fields t => touch Shared (FieldList t) ;; Call (base t) ;; Any (fun b => Call (all_fields b))
  (* reflection/type.rs:347-349 *)
  | get_field t => touch Shared (FieldMap t)
  (* reflection/type.rs:357-366: the guard of the interfaces lives for the loop *)
  | all_methods t => touch Shared (MethodList t) ;; Call (base t) ;; Any (fun b => Call (all_methods b)) ;;
      Hold Shared (InterfaceList t) (Many (Any (fun i => Call (all_methods i))))
  (* reflection/type.rs:368-370 *)
  | get_method t => touch Shared (MethodMap t)
  (* reflection/type.rs:382-384 *)
  | kind t => touch Shared (Kind t)
  (* reflection/type.rs:386-396 *)
  | instance_of t => Done || Call (base t) ;; (Any (fun b => Call (instance_of b)) || touch Shared (InterfaceList t))
  (* reflection/type.rs:398-401 *)
  | is_reference_type t => Call get_type ;; Call (instance_of t)
  (* reflection/type.rs:404-449: the guard of the fields lives for the fold *)
  | size t => Many (Call get_type) ;;
      Hold Shared (FieldList t) (Many (Any (fun u => Call (is_reference_type u) ;; (Done || Call (size u))))) ;;
      Call (base t) ;; Any (fun b => Call (size b))
  (* reflection/type.rs:548-618 *)
  | managed_type => touch Shared Registry
  (* reflection/field.rs:13-40 *)
  | field_load => Call get_type_for_element_type
  (* reflection/method.rs:13-109: the guard of the parameters, of the method made here, is held while
     their types are looked up *)
  | method_load =>
      (Many (Call get_type_for_element_type) ;; Call get_internal_method || Call method_body_load || Done) ;;
      Call get_type_for_element_type ;;
      New (fun m => Hold Exclusive (Params m) (Many (Call get_type_for_element_type)))
  (* reflection/method_body.rs:22-245 *)
  | method_body_load => Many (Call get_type_for_element_type) ;; Many (Call exception_clause_new)
  (* reflection/method_body.rs:287-346 *)
  | exception_clause_new => Done || Call get_type
  (* reflection/method.rs:185-197 *)
  | method_display m => Hold Shared (Params m) Done
  (* gc/mod.rs:43-58, without the borrow of the heap, which the callers hold *)
  | alloc i => Any (fun t => Call (size t))
  (* gc/mod.rs:60-77 *)
  | alloc_array i => Any (fun t => Call (size t)) ;; Call array_of
  (* gc/mod.rs:79-97 *)
  | alloc_string i => Call get_type
  (* gc/object.rs:40-50: the guard of the types lives while the size is computed *)
  | raw_data => Hold Shared Registry (Any (fun t => Call (size t))) || Done || Call type_of ;; Any (fun t => Call (size t))
  (* gc/object.rs:52-54, gc/array.rs:39-41 *)
  | type_of => touch Shared Registry
  (* gc/raw_object.rs:33-61 *)
  | raw_object_get => Hold Shared Registry Done
  (* gc/array.rs:51-132: the guard of the registry is held while the slice is made *)
  | array_set => Done || Hold Shared Registry (Call as_slice)
  (* gc/array.rs:157-187 *)
  | as_slice => Call managed_type
  (* interpreter/mod.rs:37-43 *)
  | interpreter_execute i => Call (frame_execute i) || Call console_write || Any (fun m => Call (method_display m))
  (* interpreter/stack_frame.rs:38-436: ret, call, newobj, ldfld, newarr, stelem, ldelem, ldstr; other
     instructions do not borrow *)
  | frame_execute i => Many (
         Call get_type
      || Call (method_call i)
      || Any (fun a => Call (resolve_method a)) ;; Hold Exclusive (Heap i) (Call (alloc i)) ;; Any (fun m => touch Shared (Params m)) ;; Call (method_call i)
      || Any (fun a => Call (resolve_field a)) ;; (Done || Call raw_object_get)
      || Any (fun a => Call (resolve_type a)) ;; Hold Exclusive (Heap i) (Call (alloc_array i))
      || Call as_slice ;; (Done || Call type_of ;; Call get_type)
      || Hold Exclusive (Heap i) (Call (alloc_string i)))
  (* interpreter/stack_frame.rs:438-470 *)
  | method_call i => Any (fun a => Call (resolve_method a)) ;; Any (fun m => touch Shared (Params m)) ;; Call (interpreter_execute i)
  (* internal_method/System_Console.rs:6-14 *)
  | console_write => touch Exclusive Registry
  end.

(** An execution of the code, begun with the guards [held], reaches a borrow that is refused: the
    panic "already borrowed" or "already mutably borrowed". *)
Inductive clash : guards -> code -> Prop :=
| clash_here held m c a : refused held m c -> clash held (Hold m c a)
| clash_inside held m c a : clash ((m, c) :: held) a -> clash held (Hold m c a)
| clash_first held a b : clash held a -> clash held (Then a b)
| clash_second held a b : clash held b -> clash held (Then a b)
| clash_left held a b : clash held a -> clash held (Either a b)
| clash_right held a b : clash held b -> clash held (Either a b)
| clash_many held a : clash held a -> clash held (Many a)
| clash_any held k n : clash held (k n) -> clash held (Any k)
| clash_new held k n : (forall m c, In (m, c) held -> owner c <> Some n) -> clash held (k n) -> clash held (New k)
| clash_call held f : clash held (body f) -> clash held (Call f).

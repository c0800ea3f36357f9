(** The room that decoders ask for in advance with [Vec::with_capacity].  The decoders of
    Tables.v and Blob.v say nothing about it; here they are written once more with a note of
    every such request.  File names are relative to /repo/clr_lite/src/metadata.  A request is
    the number of elements, not of bytes: the size of an element in memory is not modelled, nor
    is what happens when there is not enough memory. *)
From Coq Require Import NArith String List Bool.
From Coq.Strings Require Import Byte.
From Verif Require Import Base BinaryReader Tables Blob.
Import ListNotations.
Open Scope N_scope.

(** A cursor together with the requests made so far, the latest first.  This is bookkeeping of
    the model: the code keeps no such list. *)
Record asked := mkAsked { a_reader : reader; a_log : list N }.

(** [Vec::with_capacity(n)]. *)
Definition ask (n : N) : M asked unit := fun s => Ok tt (mkAsked (a_reader s) (n :: a_log s)).

(** A piece of code without requests. *)
Definition quietly {A} (m : M reader A) : M asked A :=
  fun s => match m (a_reader s) with
           | Ok a r => Ok a (mkAsked r (a_log s))
           | Err e r => Err e (mkAsked r (a_log s))
           | Panic w => Panic w
           | Ub w => Ub w
           | NoFuel => NoFuel
           end.

(** A cursor at the start of some bytes, with no request made yet. *)
Definition start (d : list byte) : asked := mkAsked (new_reader d) [].

(** An outcome without the notes. *)
Definition strip {A} (x : res asked A) : res reader A :=
  match x with
  | Ok a s => Ok a (a_reader s)
  | Err e s => Err e (a_reader s)
  | Panic w => Panic w
  | Ub w => Ub w
  | NoFuel => NoFuel
  end.

(** ** tables/mod.rs *)

(** tables/mod.rs:365-373, [read_table]. *)
Definition table_asking {A} (E : tenv) (t : table) (row : M reader A) : M asked (list A) :=
  ask (at_table 0 (row_counts E) t) ;;;
  quietly (read_table E t row).

(** tables/mod.rs:375-416, [read_tables]. *)
Definition tables_asking (p : profile) (E : tenv) : M asked tables :=
  t_module <- table_asking E TModule (read_module p E) ;;
  t_type_ref <- table_asking E TTypeRef (read_type_ref p E) ;;
  t_type_def <- table_asking E TTypeDef (read_type_def p E) ;;
  t_field <- table_asking E TField (read_field p E) ;;
  t_method_def <- table_asking E TMethodDef (read_method_def p E) ;;
  t_param <- table_asking E TParam (read_param p E) ;;
  t_interface_impl <- table_asking E TInterfaceImpl (read_interface_impl p E) ;;
  t_member_ref <- table_asking E TMemberRef (read_member_ref p E) ;;
  t_constant <- table_asking E TConstant (read_constant p E) ;;
  t_custom_attribute <- table_asking E TCustomAttribute (read_custom_attribute p E) ;;
  t_field_marshal <- table_asking E TFieldMarshal (read_field_marshal p E) ;;
  t_decl_security <- table_asking E TDeclSecurity (read_decl_security p E) ;;
  t_class_layout <- table_asking E TClassLayout (read_class_layout p E) ;;
  t_field_layout <- table_asking E TFieldLayout (read_field_layout p E) ;;
  t_standalone_sig <- table_asking E TStandaloneSig (read_standalone_sig p E) ;;
  t_event_map <- table_asking E TEventMap (read_event_map p E) ;;
  t_event <- table_asking E TEvent (read_event p E) ;;
  t_property_map <- table_asking E TPropertyMap (read_property_map p E) ;;
  t_property <- table_asking E TProperty (read_property p E) ;;
  t_method_semantics <- table_asking E TMethodSemantics (read_method_semantics p E) ;;
  t_method_impl <- table_asking E TMethodImpl (read_method_impl p E) ;;
  t_module_ref <- table_asking E TModuleRef (read_module_ref p E) ;;
  t_type_spec <- table_asking E TTypeSpec (read_type_spec p E) ;;
  t_impl_map <- table_asking E TImplMap (read_impl_map p E) ;;
  t_field_rva <- table_asking E TFieldRva (read_field_rva p E) ;;
  t_assembly <- table_asking E TAssembly (read_assembly p E) ;;
  t_assembly_processor <- table_asking E TAssemblyProcessor (read_assembly_processor p E) ;;
  t_assembly_os <- table_asking E TAssemblyOs (read_assembly_os p E) ;;
  t_assembly_ref <- table_asking E TAssemblyRef (read_assembly_ref p E) ;;
  t_assembly_ref_processor <- table_asking E TAssemblyRefProcessor (read_assembly_ref_processor p E) ;;
  t_assembly_ref_os <- table_asking E TAssemblyRefOs (read_assembly_ref_os p E) ;;
  t_file <- table_asking E TFile (read_file p E) ;;
  t_exported_type <- table_asking E TExportedType (read_exported_type p E) ;;
  t_manifest_resource <- table_asking E TManifestResource (read_manifest_resource p E) ;;
  t_nested_class <- table_asking E TNestedClass (read_nested_class p E) ;;
  t_generic_param <- table_asking E TGenericParam (read_generic_param p E) ;;
  t_method_spec <- table_asking E TMethodSpec (read_method_spec p E) ;;
  t_generic_param_constraint <- table_asking E TGenericParamConstraint (read_generic_param_constraint p E) ;;
  ret {| tb_module := t_module; tb_type_ref := t_type_ref; tb_type_def := t_type_def; tb_field := t_field; tb_method_def := t_method_def; tb_param := t_param; tb_interface_impl := t_interface_impl; tb_member_ref := t_member_ref; tb_constant := t_constant; tb_custom_attribute := t_custom_attribute; tb_field_marshal := t_field_marshal; tb_decl_security := t_decl_security; tb_class_layout := t_class_layout; tb_field_layout := t_field_layout; tb_standalone_sig := t_standalone_sig; tb_event_map := t_event_map; tb_event := t_event; tb_property_map := t_property_map; tb_property := t_property; tb_method_semantics := t_method_semantics; tb_method_impl := t_method_impl; tb_module_ref := t_module_ref; tb_type_spec := t_type_spec; tb_impl_map := t_impl_map; tb_field_rva := t_field_rva; tb_assembly := t_assembly; tb_assembly_processor := t_assembly_processor; tb_assembly_os := t_assembly_os; tb_assembly_ref := t_assembly_ref; tb_assembly_ref_processor := t_assembly_ref_processor; tb_assembly_ref_os := t_assembly_ref_os; tb_file := t_file; tb_exported_type := t_exported_type; tb_manifest_resource := t_manifest_resource; tb_nested_class := t_nested_class; tb_generic_param := t_generic_param; tb_method_spec := t_method_spec; tb_generic_param_constraint := t_generic_param_constraint |}.

(** tables/mod.rs:241-361, [TableReader::read] up to the call of [read_tables]. *)
Definition stream_header (p : profile) : M reader tenv :=
  let bad := "Invalid metadata header"%string in
  advance p 6 ;;;
  b <- rd p 1 bad ;;
  flags <- ok_or (heap_size_flags b) bad ;;
  advance p 1 ;;;
  present <- rd p 8 bad ;;
  rd p 8 bad ;;;
  raw <- read_array p 4 (count_ones present 0 64) ;;
  raw <- ok_or raw bad ;;
  let counts := spread present 0 64 (map le_dec (chunks 4 (N.to_nat (count_ones present 0 64)) raw)) in
  ret (make_env flags counts).

(** tables/mod.rs:241-363, [TableReader::read]. *)
Definition stream_asking (p : profile) : M asked tables :=
  E <- quietly (stream_header p) ;; tables_asking p E.

(** ** blob *)

(** blob/array_shape.rs:12-31, [read_array_shape]. *)
Definition array_shape_asking (p : profile) : M asked array_shape :=
  rank <- quietly (read_compressed_u32 p) ;;
  count <- quietly (read_compressed_u32 p) ;;
  ask count ;;;
  sizes <- repeat_m (N.to_nat count) (quietly (read_compressed_u32 p)) ;;
  count <- quietly (read_compressed_u32 p) ;;
  ask count ;;;
  lower_bounds <- repeat_m (N.to_nat count) (quietly (read_compressed_u32 p)) ;;
  ret {| as_rank := rank; as_sizes := sizes; as_lower_bounds := lower_bounds |}.

(** blob/element_type.rs:47-98, [read_element_type]; [fuel] as in [element_type_f]. *)
Fixpoint element_asking_f (fuel : nat) (p : profile) : M asked element_type :=
  match fuel with
  | O => nofuel
  | S f =>
      b <- quietly (rd p 1 blob_eof) ;;
      match b with
      | 0x1 => ret EVoid
      | 0x2 => ret EBool
      | 0x3 => ret EChar
      | 0x4 => ret ESByte
      | 0x5 => ret EByte
      | 0x6 => ret EShort
      | 0x7 => ret EUShort
      | 0x8 => ret EInt
      | 0x9 => ret EUInt
      | 0xa => ret ELong
      | 0xb => ret EULong
      | 0xc => ret EFloat
      | 0xd => ret EDouble
      | 0xe => ret EString
      | 0xf => t <- element_asking_f f p ;; ret (EPointer t)
      | 0x10 => t <- element_asking_f f p ;; ret (EReference t)
      | 0x11 => h <- quietly (read_type_def_or_ref p) ;; ret (EValueType h)
      | 0x12 => h <- quietly (read_type_def_or_ref p) ;; ret (EClass h)
      | 0x13 => n <- quietly (read_compressed_u32 p) ;; ret (ETypeGenericParam n)
      | 0x14 => t <- element_asking_f f p ;; shape <- array_shape_asking p ;; ret (EArray t shape)
      | 0x15 =>
          t <- element_asking_f f p ;;
          count <- quietly (read_compressed_u32 p) ;;
          ask count ;;;
          args <- repeat_m (N.to_nat count) (element_asking_f f p) ;;
          ret (EGeneric t args)
      | 0x16 => ret ETypedReference
      | 0x18 => ret EIntPtr
      | 0x19 => ret EUIntPtr
      | 0x1c => ret EObject
      | 0x1d => t <- element_asking_f f p ;; ret (ESzArray t)
      | 0x1e => n <- quietly (read_compressed_u32 p) ;; ret (EMethodGenericParam n)
      | 0x41 => ret EVarargSentinel
      | _ => fail "Invalid ELEMENT_TYPE"
      end
  end.

(** The whole function; the fuel is the one of [read_element_type]. *)
Definition element_asking (p : profile) : M asked element_type :=
  fun s => element_asking_f (S (List.length (rdata (a_reader s)))) p s.

(** blob/method_signature.rs:15-48, [read_method_signature]. *)
Definition method_signature_asking (p : profile) : M asked method_signature :=
  next <- quietly (rd p 1 blob_eof) ;;
  let instance := has next 0x20 in
  let explicit_this := has next 0x40 in
  let vararg := has next 0x5 in
  let generic := has next 0x10 in
  generic_param_count <- (if generic then quietly (read_compressed_u32 p) else ret 0) ;;
  param_count <- quietly (read_compressed_u32 p) ;;
  return_type <- element_asking p ;;
  ask param_count ;;;
  params <- repeat_m (N.to_nat param_count) (element_asking p) ;;
  ret {| sg_instance := instance; sg_explicit_this := explicit_this; sg_vararg := vararg;
         sg_generic_param_count := generic_param_count; sg_return_type := return_type;
         sg_params := params |}.

(** blob/property_signature.rs:12-38, [read_property_signature]. *)
Definition property_signature_asking (p : profile) : M asked property_signature :=
  next <- quietly (rd p 1 blob_eof) ;;
  if negb (has next 0x8) then fail "Invalid property signature"
  else
    let instance := has next 0x20 in
    param_count <- quietly (read_compressed_u32 p) ;;
    return_type <- element_asking p ;;
    ask param_count ;;;
    params <- repeat_m (N.to_nat param_count) (element_asking p) ;;
    ret {| ps_instance := instance; ps_return_type := return_type; ps_params := params |}.

(** blob/method_spec.rs:10-29, [read_method_spec]. *)
Definition method_spec_asking (p : profile) : M asked (list element_type) :=
  b <- quietly (rd p 1 blob_eof) ;;
  if negb (b =? 0xa) then fail "Expected 0xa at the start of MethodSpec"
  else
    count <- quietly (read_compressed_u32 p) ;;
    ask count ;;;
    repeat_m (N.to_nat count) (element_asking p).

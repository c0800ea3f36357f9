(** Model of the metadata tables: /repo/clr_lite/src/metadata/tables.  File names below are
    relative to that directory. *)
From Coq Require Import NArith String List Bool.
From Coq.Strings Require Import Byte.
From Verif Require Import Base BinaryReader Attributes.
Import ListNotations.
Open Scope N_scope.

(** table_type.rs:2-41, [TableType]. *)
Inductive table :=
| TModule | TTypeRef | TTypeDef | TField | TMethodDef | TParam | TInterfaceImpl | TMemberRef | TConstant | TCustomAttribute | TFieldMarshal | TDeclSecurity | TClassLayout | TFieldLayout | TStandaloneSig | TEventMap | TEvent | TPropertyMap | TProperty | TMethodSemantics | TMethodImpl | TModuleRef | TTypeSpec | TImplMap | TFieldRva | TAssembly | TAssemblyProcessor | TAssemblyOs | TAssemblyRef | TAssemblyRefProcessor | TAssemblyRefOs | TFile | TExportedType | TManifestResource | TNestedClass | TGenericParam | TMethodSpec | TGenericParamConstraint.

(** table_type.rs:2-41: the discriminants. *)
Definition table_id (t : table) : N :=
  match t with
  | TModule => 0x00
  | TTypeRef => 0x01
  | TTypeDef => 0x02
  | TField => 0x04
  | TMethodDef => 0x06
  | TParam => 0x08
  | TInterfaceImpl => 0x09
  | TMemberRef => 0x0a
  | TConstant => 0x0b
  | TCustomAttribute => 0x0c
  | TFieldMarshal => 0x0d
  | TDeclSecurity => 0x0e
  | TClassLayout => 0x0f
  | TFieldLayout => 0x10
  | TStandaloneSig => 0x11
  | TEventMap => 0x12
  | TEvent => 0x14
  | TPropertyMap => 0x15
  | TProperty => 0x17
  | TMethodSemantics => 0x18
  | TMethodImpl => 0x19
  | TModuleRef => 0x1a
  | TTypeSpec => 0x1b
  | TImplMap => 0x1c
  | TFieldRva => 0x1d
  | TAssembly => 0x20
  | TAssemblyProcessor => 0x21
  | TAssemblyOs => 0x22
  | TAssemblyRef => 0x23
  | TAssemblyRefProcessor => 0x24
  | TAssemblyRefOs => 0x25
  | TFile => 0x26
  | TExportedType => 0x27
  | TManifestResource => 0x28
  | TNestedClass => 0x29
  | TGenericParam => 0x2a
  | TMethodSpec => 0x2b
  | TGenericParamConstraint => 0x2c
  end.

(** The [XxxHandle] newtypes (for instance type_def.rs:14-15) and the coded-index enums of
    coded_index/*.rs.  A coded-index value is represented by the table its enum constructor
    names together with the number inside; a plain handle is just that number. *)
Record row_ref := mkRef { ref_table : table; ref_index : N }.

(** mod.rs:205-230, [TableReader], without its cursor (the cursor is the state of the
    monad).  The arrays indexed by table are lists of length 64. *)
Record tenv := {
  row_counts : list N;
  wide_table_handles : list bool;
  wide_string : bool; wide_guid : bool; wide_blob : bool;
  wide_type_def_or_ref : bool;
  wide_has_constant : bool;
  wide_has_custom_attribute : bool;
  wide_has_field_marshal : bool;
  wide_has_decl_security : bool;
  wide_member_ref_parent : bool;
  wide_has_semantics : bool;
  wide_method_def_or_ref : bool;
  wide_member_forwarded : bool;
  wide_implementation : bool;
  wide_custom_attribute_type : bool;
  wide_resolution_scope : bool;
  wide_type_or_method_def : bool }.

(** mod.rs:421: the error of [_read]. *)
Definition eof : string := "Unexpected EOF".

(** Array indexing by a table discriminant (always below 64). *)
Definition at_table {A} (d : A) (l : list A) (t : table) : A := nth (N.to_nat (table_id t)) l d.

(** mod.rs:428-510: the common shape of the handle readers, a [u32] if wide and a [u16]
    otherwise, then [as usize]. *)
Definition read_index (p : profile) (wide : bool) : M reader N :=
  if wide then rd p 4 eof else rd p 2 eof.

(** mod.rs:428-433. *)
Definition read_type_def_handle (p : profile) (E : tenv) : M reader N :=
  read_index p (at_table false (wide_table_handles E) TTypeDef).
(** mod.rs:435-440. *)
Definition read_field_handle (p : profile) (E : tenv) : M reader N :=
  read_index p (at_table false (wide_table_handles E) TField).
(** mod.rs:442-447. *)
Definition read_method_def_handle (p : profile) (E : tenv) : M reader N :=
  read_index p (at_table false (wide_table_handles E) TMethodDef).
(** mod.rs:449-454. *)
Definition read_param_handle (p : profile) (E : tenv) : M reader N :=
  read_index p (at_table false (wide_table_handles E) TParam).
(** mod.rs:456-461. *)
Definition read_event_handle (p : profile) (E : tenv) : M reader N :=
  read_index p (at_table false (wide_table_handles E) TEvent).
(** mod.rs:463-468. *)
Definition read_property_handle (p : profile) (E : tenv) : M reader N :=
  read_index p (at_table false (wide_table_handles E) TProperty).
(** mod.rs:470-475. *)
Definition read_module_ref_handle (p : profile) (E : tenv) : M reader N :=
  read_index p (at_table false (wide_table_handles E) TModuleRef).
(** mod.rs:477-482. *)
Definition read_assembly_ref_handle (p : profile) (E : tenv) : M reader N :=
  read_index p (at_table false (wide_table_handles E) TAssemblyRef).
(** mod.rs:484-489. *)
Definition read_generic_param_handle (p : profile) (E : tenv) : M reader N :=
  read_index p (at_table false (wide_table_handles E) TGenericParam).
(** mod.rs:491-496. *)
Definition read_string_handle (p : profile) (E : tenv) : M reader N := read_index p (wide_string E).
(** mod.rs:498-503. *)
Definition read_guid_handle (p : profile) (E : tenv) : M reader N := read_index p (wide_guid E).
(** mod.rs:505-510. *)
Definition read_blob_handle (p : profile) (E : tenv) : M reader N := read_index p (wide_blob E).

(** mod.rs:513-520 (and the same lines of every coded-index reader): split the value into
    tag and index with [TAG_MASK]; [count_ones] of a mask [2^k - 1] is [k]. *)
Definition popcount5 (m : N) : N := 
  N.b2n (N.testbit m 0) + N.b2n (N.testbit m 1) + N.b2n (N.testbit m 2) +
  N.b2n (N.testbit m 3) + N.b2n (N.testbit m 4).
Definition read_coded (p : profile) (wide : bool) (mask : N) (tag_table : N -> option table)
    (e : string) : M reader row_ref :=
  data <- read_index p wide ;;
  let tag := N.land data mask in
  let index := N.shiftr (N.ldiff data mask) (popcount5 mask) in
  match tag_table tag with
  | Some t => ret (mkRef t index)
  | None => fail e
  end.

(** coded_index/type_def_or_ref.rs, [TAG_MASK] and [TABLES]; mod.rs:512-533: the tag match and the reader. *)
Definition mask_type_def_or_ref : N := 3.
Definition tables_type_def_or_ref : list table :=
  [TTypeDef; TTypeRef; TTypeSpec].
Definition tag_type_def_or_ref (tag : N) : option table :=
  match tag with
  | 0 => Some TTypeDef
  | 1 => Some TTypeRef
  | 2 => Some TTypeSpec
  | _ => None
  end.
Definition read_type_def_or_ref_handle (p : profile) (E : tenv) : M reader row_ref :=
  read_coded p (wide_type_def_or_ref E) mask_type_def_or_ref tag_type_def_or_ref "Invalid TypeDefOrRef tag".

(** coded_index/has_constant.rs, [TAG_MASK] and [TABLES]; mod.rs:535-554: the tag match and the reader. *)
Definition mask_has_constant : N := 3.
Definition tables_has_constant : list table :=
  [TField; TParam; TProperty].
Definition tag_has_constant (tag : N) : option table :=
  match tag with
  | 0 => Some TField
  | 1 => Some TParam
  | 2 => Some TProperty
  | _ => None
  end.
Definition read_has_constant_handle (p : profile) (E : tenv) : M reader row_ref :=
  read_coded p (wide_has_constant E) mask_has_constant tag_has_constant "Invalid HasConstant tag".

(** coded_index/has_custom_attribute.rs, [TAG_MASK] and [TABLES]; mod.rs:556-599: the tag match and the reader. *)
Definition mask_has_custom_attribute : N := 31.
Definition tables_has_custom_attribute : list table :=
  [TMethodDef; TField; TTypeRef; TTypeDef; TParam; TInterfaceImpl; TMemberRef; TModule; TProperty; TEvent; TStandaloneSig; TModuleRef; TTypeSpec; TAssembly; TAssemblyRef; TFile; TExportedType; TManifestResource; TGenericParam; TGenericParamConstraint; TMethodSpec].
Definition tag_has_custom_attribute (tag : N) : option table :=
  match tag with
  | 0 => Some TMethodDef
  | 1 => Some TField
  | 2 => Some TTypeRef
  | 3 => Some TTypeDef
  | 4 => Some TParam
  | 5 => Some TInterfaceImpl
  | 6 => Some TMemberRef
  | 7 => Some TModule
  | 9 => Some TProperty
  | 10 => Some TEvent
  | 11 => Some TStandaloneSig
  | 12 => Some TModuleRef
  | 13 => Some TTypeSpec
  | 14 => Some TAssembly
  | 15 => Some TAssemblyRef
  | 16 => Some TFile
  | 17 => Some TExportedType
  | 18 => Some TManifestResource
  | 19 => Some TGenericParam
  | 20 => Some TGenericParamConstraint
  | 21 => Some TMethodSpec
  | _ => None
  end.
Definition read_has_custom_attribute_handle (p : profile) (E : tenv) : M reader row_ref :=
  read_coded p (wide_has_custom_attribute E) mask_has_custom_attribute tag_has_custom_attribute "Invalid HasCustomAttribute tag".

(** coded_index/has_field_marshal.rs, [TAG_MASK] and [TABLES]; mod.rs:601-623: the tag match and the reader. *)
Definition mask_has_field_marshal : N := 1.
Definition tables_has_field_marshal : list table :=
  [TField; TParam].
Definition tag_has_field_marshal (tag : N) : option table :=
  match tag with
  | 0 => Some TField
  | 1 => Some TParam
  | _ => None
  end.
Definition read_has_field_marshal_handle (p : profile) (E : tenv) : M reader row_ref :=
  read_coded p (wide_has_field_marshal E) mask_has_field_marshal tag_has_field_marshal "Invalid HasFieldMarshal tag".

(** coded_index/has_decl_security.rs, [TAG_MASK] and [TABLES]; mod.rs:625-648: the tag match and the reader. *)
Definition mask_has_decl_security : N := 3.
Definition tables_has_decl_security : list table :=
  [TTypeDef; TMethodDef; TAssembly].
Definition tag_has_decl_security (tag : N) : option table :=
  match tag with
  | 0 => Some TTypeDef
  | 1 => Some TMethodDef
  | 2 => Some TAssembly
  | _ => None
  end.
Definition read_has_decl_security_handle (p : profile) (E : tenv) : M reader row_ref :=
  read_coded p (wide_has_decl_security E) mask_has_decl_security tag_has_decl_security "Invalid HasDeclSecurity tag".

(** coded_index/member_ref_parent.rs, [TAG_MASK] and [TABLES]; mod.rs:650-675: the tag match and the reader. *)
Definition mask_member_ref_parent : N := 7.
Definition tables_member_ref_parent : list table :=
  [TTypeDef; TTypeRef; TModuleRef; TMethodDef; TTypeSpec].
Definition tag_member_ref_parent (tag : N) : option table :=
  match tag with
  | 0 => Some TTypeDef
  | 1 => Some TTypeRef
  | 2 => Some TModuleRef
  | 3 => Some TMethodDef
  | 4 => Some TTypeSpec
  | _ => None
  end.
Definition read_member_ref_parent_handle (p : profile) (E : tenv) : M reader row_ref :=
  read_coded p (wide_member_ref_parent E) mask_member_ref_parent tag_member_ref_parent "Invalid MemberRefParent tag".

(** coded_index/has_semantics.rs, [TAG_MASK] and [TABLES]; mod.rs:677-697: the tag match and the reader. *)
Definition mask_has_semantics : N := 1.
Definition tables_has_semantics : list table :=
  [TEvent; TProperty].
Definition tag_has_semantics (tag : N) : option table :=
  match tag with
  | 0 => Some TEvent
  | 1 => Some TProperty
  | _ => None
  end.
Definition read_has_semantics_handle (p : profile) (E : tenv) : M reader row_ref :=
  read_coded p (wide_has_semantics E) mask_has_semantics tag_has_semantics "Invalid HasSemantics tag".

(** coded_index/method_def_or_ref.rs, [TAG_MASK] and [TABLES]; mod.rs:699-721: the tag match and the reader. *)
Definition mask_method_def_or_ref : N := 1.
Definition tables_method_def_or_ref : list table :=
  [TMethodDef; TMemberRef].
Definition tag_method_def_or_ref (tag : N) : option table :=
  match tag with
  | 0 => Some TMethodDef
  | 1 => Some TMemberRef
  | _ => None
  end.
Definition read_method_def_or_ref_handle (p : profile) (E : tenv) : M reader row_ref :=
  read_coded p (wide_method_def_or_ref E) mask_method_def_or_ref tag_method_def_or_ref "Invalid MethodDefOrRef tag".

(** coded_index/member_forwarded.rs, [TAG_MASK] and [TABLES]; mod.rs:723-745: the tag match and the reader. *)
Definition mask_member_forwarded : N := 1.
Definition tables_member_forwarded : list table :=
  [TField; TMethodDef].
Definition tag_member_forwarded (tag : N) : option table :=
  match tag with
  | 0 => Some TField
  | 1 => Some TMethodDef
  | _ => None
  end.
Definition read_member_forwarded_handle (p : profile) (E : tenv) : M reader row_ref :=
  read_coded p (wide_member_forwarded E) mask_member_forwarded tag_member_forwarded "Invalid MemberForwarded tag".

(** coded_index/implementation.rs, [TAG_MASK] and [TABLES]; mod.rs:747-768: the tag match and the reader. *)
Definition mask_implementation : N := 3.
Definition tables_implementation : list table :=
  [TFile; TAssemblyRef; TExportedType].
Definition tag_implementation (tag : N) : option table :=
  match tag with
  | 0 => Some TFile
  | 1 => Some TAssemblyRef
  | 2 => Some TExportedType
  | _ => None
  end.
Definition read_implementation_handle (p : profile) (E : tenv) : M reader row_ref :=
  read_coded p (wide_implementation E) mask_implementation tag_implementation "Invalid Implementation tag".

(** coded_index/custom_attribute_type.rs, [TAG_MASK] and [TABLES]; mod.rs:770-792: the tag match and the reader. *)
Definition mask_custom_attribute_type : N := 7.
Definition tables_custom_attribute_type : list table :=
  [TMethodDef; TMemberRef].
Definition tag_custom_attribute_type (tag : N) : option table :=
  match tag with
  | 2 => Some TMethodDef
  | 3 => Some TMemberRef
  | _ => None
  end.
Definition read_custom_attribute_type_handle (p : profile) (E : tenv) : M reader row_ref :=
  read_coded p (wide_custom_attribute_type E) mask_custom_attribute_type tag_custom_attribute_type "Invalid CustomAttributeType tag".

(** coded_index/resolution_scope.rs, [TAG_MASK] and [TABLES]; mod.rs:794-818: the tag match and the reader. *)
Definition mask_resolution_scope : N := 3.
Definition tables_resolution_scope : list table :=
  [TModule; TModuleRef; TAssemblyRef; TTypeRef].
Definition tag_resolution_scope (tag : N) : option table :=
  match tag with
  | 0 => Some TModule
  | 1 => Some TModuleRef
  | 2 => Some TAssemblyRef
  | 3 => Some TTypeRef
  | _ => None
  end.
Definition read_resolution_scope_handle (p : profile) (E : tenv) : M reader row_ref :=
  read_coded p (wide_resolution_scope E) mask_resolution_scope tag_resolution_scope "Invalid ResolutionScope tag".

(** coded_index/type_or_method_def.rs, [TAG_MASK] and [TABLES]; mod.rs:820-842: the tag match and the reader. *)
Definition mask_type_or_method_def : N := 1.
Definition tables_type_or_method_def : list table :=
  [TTypeDef; TMethodDef].
Definition tag_type_or_method_def (tag : N) : option table :=
  match tag with
  | 0 => Some TTypeDef
  | 1 => Some TMethodDef
  | _ => None
  end.
Definition read_type_or_method_def_handle (p : profile) (E : tenv) : M reader row_ref :=
  read_coded p (wide_type_or_method_def E) mask_type_or_method_def tag_type_or_method_def "Invalid TypeOrMethodDef tag".

(** [LARGE_ROW_SIZE] in coded_index/*.rs: [1 << (16 - TAG_MASK.count_ones())]. *)
Definition large_row_size (mask : N) : N := N.shiftl 1 (16 - popcount5 mask).

(** mod.rs:845-849, [is_coded_index_wide]. *)
Definition is_coded_index_wide (large : N) (tables : list table) (counts : list N) : bool :=
  existsb (fun t => large <? at_table 0 counts t) tables.

(** class_layout.rs:32-36: zero means absent. *)
Definition nonzero (x : N) : option N := if x =? 0 then None else Some x.
(** file.rs:31-35. *)
Definition is_zero (x : N) : bool := x =? 0.
(** manifest_resource.rs:34-38. *)
Definition is_one (x : N) : bool := x =? 1.

(** The [?] after a [from_raw]. *)
Definition attr {A} (o : option A) : M reader A := ok_or o "Invalid attributes".

(** ** Rows *)

(** module.rs:4-8. *)
Record module_row := { md_name : N; md_version : N }.
(** module.rs:29-37.  The result of reading [generation] is ignored, even an error. *)
Definition read_module (p : profile) (E : tenv) : M reader module_row :=
  read p 2 ;;;
  name <- read_string_handle p E ;;
  version <- read_guid_handle p E ;;
  read_guid_handle p E ;;;
  read_guid_handle p E ;;;
  ret {| md_name := name; md_version := version |}.

(** type_ref.rs:4-9. *)
Record type_ref_row := { tr_resolution_scope : row_ref; tr_name : N; tr_namespace : N }.
(** type_ref.rs:30-36. *)
Definition read_type_ref (p : profile) (E : tenv) : M reader type_ref_row :=
  x0 <- read_resolution_scope_handle p E ;;
  x1 <- read_string_handle p E ;;
  x2 <- read_string_handle p E ;;
  ret {| tr_resolution_scope := x0; tr_name := x1; tr_namespace := x2 |}.

(** type_def.rs:4-12. *)
Record type_def_row := { td_attributes : type_attributes; td_name : N; td_namespace : N; td_extends : row_ref; td_field_list : N; td_method_list : N }.
(** type_def.rs:149-158. *)
Definition read_type_def (p : profile) (E : tenv) : M reader type_def_row :=
  raw0 <- rd p 4 eof ;;
  x0 <- attr (type_attributes_from_raw raw0) ;;
  x1 <- read_string_handle p E ;;
  x2 <- read_string_handle p E ;;
  x3 <- read_type_def_or_ref_handle p E ;;
  x4 <- read_field_handle p E ;;
  x5 <- read_method_def_handle p E ;;
  ret {| td_attributes := x0; td_name := x1; td_namespace := x2; td_extends := x3; td_field_list := x4; td_method_list := x5 |}.

(** field.rs:4-9. *)
Record field_row := { fd_attributes : field_attributes; fd_name : N; fd_signature : N }.
(** field.rs:89-95. *)
Definition read_field (p : profile) (E : tenv) : M reader field_row :=
  raw0 <- rd p 2 eof ;;
  x0 <- attr (field_attributes_from_raw raw0) ;;
  x1 <- read_string_handle p E ;;
  x2 <- read_blob_handle p E ;;
  ret {| fd_attributes := x0; fd_name := x1; fd_signature := x2 |}.

(** method_def.rs:3-11. *)
Record method_def_row := { me_rva : N; me_impl_attributes : method_impl_attributes; me_attributes : method_attributes; me_name : N; me_signature : N; me_param_list : N }.
(** method_def.rs:162-171. *)
Definition read_method_def (p : profile) (E : tenv) : M reader method_def_row :=
  x0 <- rd p 4 eof ;;
  raw1 <- rd p 2 eof ;;
  x1 <- attr (method_impl_attributes_from_raw raw1) ;;
  raw2 <- rd p 2 eof ;;
  x2 <- attr (method_attributes_from_raw raw2) ;;
  x3 <- read_string_handle p E ;;
  x4 <- read_blob_handle p E ;;
  x5 <- read_param_handle p E ;;
  ret {| me_rva := x0; me_impl_attributes := x1; me_attributes := x2; me_name := x3; me_signature := x4; me_param_list := x5 |}.

(** param.rs:4-9. *)
Record param_row := { pm_attributes : param_attributes; pm_index : N; pm_name : N }.
(** param.rs:52-58. *)
Definition read_param (p : profile) (E : tenv) : M reader param_row :=
  raw0 <- rd p 2 eof ;;
  let x0 := param_attributes_from_raw raw0 in
  x1 <- rd p 2 eof ;;
  x2 <- read_string_handle p E ;;
  ret {| pm_attributes := x0; pm_index := x1; pm_name := x2 |}.

(** interface_impl.rs:4-8. *)
Record interface_impl_row := { ii_class : N; ii_interface : row_ref }.
(** interface_impl.rs:29-34. *)
Definition read_interface_impl (p : profile) (E : tenv) : M reader interface_impl_row :=
  x0 <- read_type_def_handle p E ;;
  x1 <- read_type_def_or_ref_handle p E ;;
  ret {| ii_class := x0; ii_interface := x1 |}.

(** member_ref.rs:4-9. *)
Record member_ref_row := { mr_parent : row_ref; mr_name : N; mr_signature : N }.
(** member_ref.rs:30-36. *)
Definition read_member_ref (p : profile) (E : tenv) : M reader member_ref_row :=
  x0 <- read_member_ref_parent_handle p E ;;
  x1 <- read_string_handle p E ;;
  x2 <- read_blob_handle p E ;;
  ret {| mr_parent := x0; mr_name := x1; mr_signature := x2 |}.

(** constant.rs:4-9. *)
Record constant_row := { cn_type : constant_type; cn_parent : row_ref; cn_value : N }.
(** constant.rs:77-88.  The result of [advance] is ignored. *)
Definition read_constant (p : profile) (E : tenv) : M reader constant_row :=
  raw <- rd p 1 eof ;;
  type <- attr (constant_type_from_raw raw) ;;
  advance p 1 ;;;
  parent <- read_has_constant_handle p E ;;
  value <- read_blob_handle p E ;;
  ret {| cn_type := type; cn_parent := parent; cn_value := value |}.

(** custom_attribute.rs:4-9. *)
Record custom_attribute_row := { ca_parent : row_ref; ca_attribute_type : row_ref; ca_value : N }.
(** custom_attribute.rs:30-36. *)
Definition read_custom_attribute (p : profile) (E : tenv) : M reader custom_attribute_row :=
  x0 <- read_has_custom_attribute_handle p E ;;
  x1 <- read_custom_attribute_type_handle p E ;;
  x2 <- read_blob_handle p E ;;
  ret {| ca_parent := x0; ca_attribute_type := x1; ca_value := x2 |}.

(** field_marshal.rs:4-8. *)
Record field_marshal_row := { fm_parent : row_ref; fm_native_type : N }.
(** field_marshal.rs:29-34. *)
Definition read_field_marshal (p : profile) (E : tenv) : M reader field_marshal_row :=
  x0 <- read_has_field_marshal_handle p E ;;
  x1 <- read_blob_handle p E ;;
  ret {| fm_parent := x0; fm_native_type := x1 |}.

(** decl_security.rs:8-13. *)
Record decl_security_row := { ds_action : N; ds_parent : row_ref; ds_permission_set : N }.
(** decl_security.rs:34-40. *)
Definition read_decl_security (p : profile) (E : tenv) : M reader decl_security_row :=
  x0 <- rd p 2 eof ;;
  x1 <- read_has_decl_security_handle p E ;;
  x2 <- read_blob_handle p E ;;
  ret {| ds_action := x0; ds_parent := x1; ds_permission_set := x2 |}.

(** class_layout.rs:4-9. *)
Record class_layout_row := { cl_packing_size : option N; cl_class_size : option N; cl_parent : N }.
(** class_layout.rs:30-50. *)
Definition read_class_layout (p : profile) (E : tenv) : M reader class_layout_row :=
  raw0 <- rd p 2 eof ;;
  let x0 := nonzero raw0 in
  raw1 <- rd p 4 eof ;;
  let x1 := nonzero raw1 in
  x2 <- read_type_def_handle p E ;;
  ret {| cl_packing_size := x0; cl_class_size := x1; cl_parent := x2 |}.

(** field_layout.rs:4-8. *)
Record field_layout_row := { fl_offset : N; fl_field : N }.
(** field_layout.rs:29-34. *)
Definition read_field_layout (p : profile) (E : tenv) : M reader field_layout_row :=
  x0 <- rd p 4 eof ;;
  x1 <- read_field_handle p E ;;
  ret {| fl_offset := x0; fl_field := x1 |}.

(** standalone_sig.rs:4-7. *)
Record standalone_sig_row := { ss_signature : N }.
(** standalone_sig.rs:28-32. *)
Definition read_standalone_sig (p : profile) (E : tenv) : M reader standalone_sig_row :=
  x0 <- read_blob_handle p E ;;
  ret {| ss_signature := x0 |}.

(** event_map.rs:4-8. *)
Record event_map_row := { em_parent : N; em_event_list : N }.
(** event_map.rs:29-34. *)
Definition read_event_map (p : profile) (E : tenv) : M reader event_map_row :=
  x0 <- read_type_def_handle p E ;;
  x1 <- read_event_handle p E ;;
  ret {| em_parent := x0; em_event_list := x1 |}.

(** event.rs:4-9. *)
Record event_row := { ev_attributes : event_attributes; ev_name : N; ev_event_type : row_ref }.
(** event.rs:46-52. *)
Definition read_event (p : profile) (E : tenv) : M reader event_row :=
  raw0 <- rd p 2 eof ;;
  let x0 := event_attributes_from_raw raw0 in
  x1 <- read_string_handle p E ;;
  x2 <- read_type_def_or_ref_handle p E ;;
  ret {| ev_attributes := x0; ev_name := x1; ev_event_type := x2 |}.

(** property_map.rs:3-7. *)
Record property_map_row := { pp_parent : N; pp_property_list : N }.
(** property_map.rs:28-33. *)
Definition read_property_map (p : profile) (E : tenv) : M reader property_map_row :=
  x0 <- read_type_def_handle p E ;;
  x1 <- read_property_handle p E ;;
  ret {| pp_parent := x0; pp_property_list := x1 |}.

(** property.rs:4-9. *)
Record property_row := { py_attributes : property_attributes; py_name : N; py_signature : N }.
(** property.rs:48-54. *)
Definition read_property (p : profile) (E : tenv) : M reader property_row :=
  raw0 <- rd p 2 eof ;;
  let x0 := property_attributes_from_raw raw0 in
  x1 <- read_string_handle p E ;;
  x2 <- read_blob_handle p E ;;
  ret {| py_attributes := x0; py_name := x1; py_signature := x2 |}.

(** method_semantics.rs:4-9. *)
Record method_semantics_row := { ms_semantics : method_semantics_type; ms_method : N; ms_association : row_ref }.
(** method_semantics.rs:60-66. *)
Definition read_method_semantics (p : profile) (E : tenv) : M reader method_semantics_row :=
  raw0 <- rd p 2 eof ;;
  x0 <- attr (method_semantics_from_raw raw0) ;;
  x1 <- read_method_def_handle p E ;;
  x2 <- read_has_semantics_handle p E ;;
  ret {| ms_semantics := x0; ms_method := x1; ms_association := x2 |}.

(** method_impl.rs:4-9. *)
Record method_impl_row := { mm_class : N; mm_body : row_ref; mm_declaration : row_ref }.
(** method_impl.rs:30-36. *)
Definition read_method_impl (p : profile) (E : tenv) : M reader method_impl_row :=
  x0 <- read_type_def_handle p E ;;
  x1 <- read_method_def_or_ref_handle p E ;;
  x2 <- read_method_def_or_ref_handle p E ;;
  ret {| mm_class := x0; mm_body := x1; mm_declaration := x2 |}.

(** module_ref.rs:4-7. *)
Record module_ref_row := { mo_name : N }.
(** module_ref.rs:27-31. *)
Definition read_module_ref (p : profile) (E : tenv) : M reader module_ref_row :=
  x0 <- read_string_handle p E ;;
  ret {| mo_name := x0 |}.

(** type_spec.rs:4-7. *)
Record type_spec_row := { ts_signature : N }.
(** type_spec.rs:28-32. *)
Definition read_type_spec (p : profile) (E : tenv) : M reader type_spec_row :=
  x0 <- read_blob_handle p E ;;
  ret {| ts_signature := x0 |}.

(** impl_map.rs:3-9. *)
Record impl_map_row := { im_attributes : pinvoke_attributes; im_member : row_ref; im_name : N; im_module : N }.
(** impl_map.rs:89-96. *)
Definition read_impl_map (p : profile) (E : tenv) : M reader impl_map_row :=
  raw0 <- rd p 2 eof ;;
  x0 <- attr (pinvoke_attributes_from_raw raw0) ;;
  x1 <- read_member_forwarded_handle p E ;;
  x2 <- read_string_handle p E ;;
  x3 <- read_module_ref_handle p E ;;
  ret {| im_attributes := x0; im_member := x1; im_name := x2; im_module := x3 |}.

(** field_rva.rs:4-8. *)
Record field_rva_row := { fr_rva : N; fr_field : N }.
(** field_rva.rs:29-34. *)
Definition read_field_rva (p : profile) (E : tenv) : M reader field_rva_row :=
  x0 <- rd p 4 eof ;;
  x1 <- read_field_handle p E ;;
  ret {| fr_rva := x0; fr_field := x1 |}.

(** assembly.rs:4-15. *)
Record assembly_row := { as_hash_algorithm : hash_algorithm; as_major_version : N; as_minor_version : N; as_build_number : N; as_revision_number : N; as_flags : assembly_flags; as_public_key : N; as_name : N; as_culture : N }.
(** assembly.rs:53-82. *)
Definition read_assembly (p : profile) (E : tenv) : M reader assembly_row :=
  raw0 <- rd p 4 eof ;;
  x0 <- attr (hash_algorithm_from_raw raw0) ;;
  x1 <- rd p 2 eof ;;
  x2 <- rd p 2 eof ;;
  x3 <- rd p 2 eof ;;
  x4 <- rd p 2 eof ;;
  raw5 <- rd p 4 eof ;;
  let x5 := assembly_flags_from_raw raw5 in
  x6 <- read_blob_handle p E ;;
  x7 <- read_string_handle p E ;;
  x8 <- read_string_handle p E ;;
  ret {| as_hash_algorithm := x0; as_major_version := x1; as_minor_version := x2; as_build_number := x3; as_revision_number := x4; as_flags := x5; as_public_key := x6; as_name := x7; as_culture := x8 |}.

(** assembly_processor.rs:4-7. *)
Record assembly_processor_row := { ap_processor : N }.
(** assembly_processor.rs:28-32. *)
Definition read_assembly_processor (p : profile) (E : tenv) : M reader assembly_processor_row :=
  x0 <- rd p 4 eof ;;
  ret {| ap_processor := x0 |}.

(** assembly_os.rs:4-9. *)
Record assembly_os_row := { ao_os_platform_id : N; ao_os_major : N; ao_os_minor : N }.
(** assembly_os.rs:30-36. *)
Definition read_assembly_os (p : profile) (E : tenv) : M reader assembly_os_row :=
  x0 <- rd p 4 eof ;;
  x1 <- rd p 4 eof ;;
  x2 <- rd p 4 eof ;;
  ret {| ao_os_platform_id := x0; ao_os_major := x1; ao_os_minor := x2 |}.

(** assembly_ref.rs:4-15. *)
Record assembly_ref_row := { ar_major_version : N; ar_minor_version : N; ar_build_number : N; ar_revision_number : N; ar_flags : assembly_flags; ar_public_key_or_token : N; ar_name : N; ar_culture : N; ar_hash_value : N }.
(** assembly_ref.rs:36-56. *)
Definition read_assembly_ref (p : profile) (E : tenv) : M reader assembly_ref_row :=
  x0 <- rd p 2 eof ;;
  x1 <- rd p 2 eof ;;
  x2 <- rd p 2 eof ;;
  x3 <- rd p 2 eof ;;
  raw4 <- rd p 4 eof ;;
  let x4 := assembly_flags_from_raw raw4 in
  x5 <- read_blob_handle p E ;;
  x6 <- read_string_handle p E ;;
  x7 <- read_string_handle p E ;;
  x8 <- read_blob_handle p E ;;
  ret {| ar_major_version := x0; ar_minor_version := x1; ar_build_number := x2; ar_revision_number := x3; ar_flags := x4; ar_public_key_or_token := x5; ar_name := x6; ar_culture := x7; ar_hash_value := x8 |}.

(** assembly_ref_processor.rs:4-8. *)
Record assembly_ref_processor_row := { rp_processor : N; rp_assembly_ref : N }.
(** assembly_ref_processor.rs:29-34. *)
Definition read_assembly_ref_processor (p : profile) (E : tenv) : M reader assembly_ref_processor_row :=
  x0 <- rd p 4 eof ;;
  x1 <- read_assembly_ref_handle p E ;;
  ret {| rp_processor := x0; rp_assembly_ref := x1 |}.

(** assembly_ref_os.rs:4-10. *)
Record assembly_ref_os_row := { ro_os_platform_id : N; ro_os_major : N; ro_os_minor : N; ro_assembly_ref : N }.
(** assembly_ref_os.rs:31-38. *)
Definition read_assembly_ref_os (p : profile) (E : tenv) : M reader assembly_ref_os_row :=
  x0 <- rd p 4 eof ;;
  x1 <- rd p 4 eof ;;
  x2 <- rd p 4 eof ;;
  x3 <- read_assembly_ref_handle p E ;;
  ret {| ro_os_platform_id := x0; ro_os_major := x1; ro_os_minor := x2; ro_assembly_ref := x3 |}.

(** file.rs:3-8. *)
Record file_row := { fi_contains_metadata : bool; fi_name : N; fi_hash_value : N }.
(** file.rs:29-39. *)
Definition read_file (p : profile) (E : tenv) : M reader file_row :=
  raw0 <- rd p 4 eof ;;
  let x0 := is_zero raw0 in
  x1 <- read_string_handle p E ;;
  x2 <- read_blob_handle p E ;;
  ret {| fi_contains_metadata := x0; fi_name := x1; fi_hash_value := x2 |}.

(** exported_type.rs:4-11. *)
Record exported_type_row := { et_flags : type_attributes; et_type_def_id : N; et_name : N; et_namespace : N; et_implementation : row_ref }.
(** exported_type.rs:32-40. *)
Definition read_exported_type (p : profile) (E : tenv) : M reader exported_type_row :=
  raw0 <- rd p 4 eof ;;
  x0 <- attr (type_attributes_from_raw raw0) ;;
  x1 <- rd p 4 eof ;;
  x2 <- read_string_handle p E ;;
  x3 <- read_string_handle p E ;;
  x4 <- read_implementation_handle p E ;;
  ret {| et_flags := x0; et_type_def_id := x1; et_name := x2; et_namespace := x3; et_implementation := x4 |}.

(** manifest_resource.rs:4-10. *)
Record manifest_resource_row := { mf_offset : N; mf_public : bool; mf_name : N; mf_implements : row_ref }.
(** manifest_resource.rs:31-42. *)
Definition read_manifest_resource (p : profile) (E : tenv) : M reader manifest_resource_row :=
  x0 <- rd p 4 eof ;;
  raw1 <- rd p 4 eof ;;
  let x1 := is_one raw1 in
  x2 <- read_string_handle p E ;;
  x3 <- read_implementation_handle p E ;;
  ret {| mf_offset := x0; mf_public := x1; mf_name := x2; mf_implements := x3 |}.

(** nested_class.rs:3-7. *)
Record nested_class_row := { nc_nested : N; nc_enclosing : N }.
(** nested_class.rs:28-33. *)
Definition read_nested_class (p : profile) (E : tenv) : M reader nested_class_row :=
  x0 <- read_type_def_handle p E ;;
  x1 <- read_type_def_handle p E ;;
  ret {| nc_nested := x0; nc_enclosing := x1 |}.

(** generic_param.rs:4-10. *)
Record generic_param_row := { gp_index : N; gp_attributes : generic_param_attributes; gp_owner : row_ref; gp_name : N }.
(** generic_param.rs:68-75. *)
Definition read_generic_param (p : profile) (E : tenv) : M reader generic_param_row :=
  x0 <- rd p 2 eof ;;
  raw1 <- rd p 2 eof ;;
  x1 <- attr (generic_param_attributes_from_raw raw1) ;;
  x2 <- read_type_or_method_def_handle p E ;;
  x3 <- read_string_handle p E ;;
  ret {| gp_index := x0; gp_attributes := x1; gp_owner := x2; gp_name := x3 |}.

(** method_spec.rs:4-8. *)
Record method_spec_row := { sp_method : row_ref; sp_instantiation : N }.
(** method_spec.rs:29-34. *)
Definition read_method_spec (p : profile) (E : tenv) : M reader method_spec_row :=
  x0 <- read_method_def_or_ref_handle p E ;;
  x1 <- read_blob_handle p E ;;
  ret {| sp_method := x0; sp_instantiation := x1 |}.

(** generic_param_constraint.rs:4-8. *)
Record generic_param_constraint_row := { gc_owner : N; gc_constraint : row_ref }.
(** generic_param_constraint.rs:29-34. *)
Definition read_generic_param_constraint (p : profile) (E : tenv) : M reader generic_param_constraint_row :=
  x0 <- read_generic_param_handle p E ;;
  x1 <- read_type_def_or_ref_handle p E ;;
  ret {| gc_owner := x0; gc_constraint := x1 |}.

(** mod.rs:142-181, [Tables]. *)
Record tables := {
  tb_module : list module_row;
  tb_type_ref : list type_ref_row;
  tb_type_def : list type_def_row;
  tb_field : list field_row;
  tb_method_def : list method_def_row;
  tb_param : list param_row;
  tb_interface_impl : list interface_impl_row;
  tb_member_ref : list member_ref_row;
  tb_constant : list constant_row;
  tb_custom_attribute : list custom_attribute_row;
  tb_field_marshal : list field_marshal_row;
  tb_decl_security : list decl_security_row;
  tb_class_layout : list class_layout_row;
  tb_field_layout : list field_layout_row;
  tb_standalone_sig : list standalone_sig_row;
  tb_event_map : list event_map_row;
  tb_event : list event_row;
  tb_property_map : list property_map_row;
  tb_property : list property_row;
  tb_method_semantics : list method_semantics_row;
  tb_method_impl : list method_impl_row;
  tb_module_ref : list module_ref_row;
  tb_type_spec : list type_spec_row;
  tb_impl_map : list impl_map_row;
  tb_field_rva : list field_rva_row;
  tb_assembly : list assembly_row;
  tb_assembly_processor : list assembly_processor_row;
  tb_assembly_os : list assembly_os_row;
  tb_assembly_ref : list assembly_ref_row;
  tb_assembly_ref_processor : list assembly_ref_processor_row;
  tb_assembly_ref_os : list assembly_ref_os_row;
  tb_file : list file_row;
  tb_exported_type : list exported_type_row;
  tb_manifest_resource : list manifest_resource_row;
  tb_nested_class : list nested_class_row;
  tb_generic_param : list generic_param_row;
  tb_method_spec : list method_spec_row;
  tb_generic_param_constraint : list generic_param_constraint_row }.

(** mod.rs:365-373, [read_table]. *)
Definition read_table {A} (E : tenv) (t : table) (row : M reader A) : M reader (list A) :=
  repeat_m (N.to_nat (at_table 0 (row_counts E) t)) row.

(** mod.rs:375-416, [read_tables]. *)
Definition read_tables (p : profile) (E : tenv) : M reader tables :=
  t_module <- read_table E TModule (read_module p E) ;;
  t_type_ref <- read_table E TTypeRef (read_type_ref p E) ;;
  t_type_def <- read_table E TTypeDef (read_type_def p E) ;;
  t_field <- read_table E TField (read_field p E) ;;
  t_method_def <- read_table E TMethodDef (read_method_def p E) ;;
  t_param <- read_table E TParam (read_param p E) ;;
  t_interface_impl <- read_table E TInterfaceImpl (read_interface_impl p E) ;;
  t_member_ref <- read_table E TMemberRef (read_member_ref p E) ;;
  t_constant <- read_table E TConstant (read_constant p E) ;;
  t_custom_attribute <- read_table E TCustomAttribute (read_custom_attribute p E) ;;
  t_field_marshal <- read_table E TFieldMarshal (read_field_marshal p E) ;;
  t_decl_security <- read_table E TDeclSecurity (read_decl_security p E) ;;
  t_class_layout <- read_table E TClassLayout (read_class_layout p E) ;;
  t_field_layout <- read_table E TFieldLayout (read_field_layout p E) ;;
  t_standalone_sig <- read_table E TStandaloneSig (read_standalone_sig p E) ;;
  t_event_map <- read_table E TEventMap (read_event_map p E) ;;
  t_event <- read_table E TEvent (read_event p E) ;;
  t_property_map <- read_table E TPropertyMap (read_property_map p E) ;;
  t_property <- read_table E TProperty (read_property p E) ;;
  t_method_semantics <- read_table E TMethodSemantics (read_method_semantics p E) ;;
  t_method_impl <- read_table E TMethodImpl (read_method_impl p E) ;;
  t_module_ref <- read_table E TModuleRef (read_module_ref p E) ;;
  t_type_spec <- read_table E TTypeSpec (read_type_spec p E) ;;
  t_impl_map <- read_table E TImplMap (read_impl_map p E) ;;
  t_field_rva <- read_table E TFieldRva (read_field_rva p E) ;;
  t_assembly <- read_table E TAssembly (read_assembly p E) ;;
  t_assembly_processor <- read_table E TAssemblyProcessor (read_assembly_processor p E) ;;
  t_assembly_os <- read_table E TAssemblyOs (read_assembly_os p E) ;;
  t_assembly_ref <- read_table E TAssemblyRef (read_assembly_ref p E) ;;
  t_assembly_ref_processor <- read_table E TAssemblyRefProcessor (read_assembly_ref_processor p E) ;;
  t_assembly_ref_os <- read_table E TAssemblyRefOs (read_assembly_ref_os p E) ;;
  t_file <- read_table E TFile (read_file p E) ;;
  t_exported_type <- read_table E TExportedType (read_exported_type p E) ;;
  t_manifest_resource <- read_table E TManifestResource (read_manifest_resource p E) ;;
  t_nested_class <- read_table E TNestedClass (read_nested_class p E) ;;
  t_generic_param <- read_table E TGenericParam (read_generic_param p E) ;;
  t_method_spec <- read_table E TMethodSpec (read_method_spec p E) ;;
  t_generic_param_constraint <- read_table E TGenericParamConstraint (read_generic_param_constraint p E) ;;
  ret {| tb_module := t_module; tb_type_ref := t_type_ref; tb_type_def := t_type_def; tb_field := t_field; tb_method_def := t_method_def; tb_param := t_param; tb_interface_impl := t_interface_impl; tb_member_ref := t_member_ref; tb_constant := t_constant; tb_custom_attribute := t_custom_attribute; tb_field_marshal := t_field_marshal; tb_decl_security := t_decl_security; tb_class_layout := t_class_layout; tb_field_layout := t_field_layout; tb_standalone_sig := t_standalone_sig; tb_event_map := t_event_map; tb_event := t_event; tb_property_map := t_property_map; tb_property := t_property; tb_method_semantics := t_method_semantics; tb_method_impl := t_method_impl; tb_module_ref := t_module_ref; tb_type_spec := t_type_spec; tb_impl_map := t_impl_map; tb_field_rva := t_field_rva; tb_assembly := t_assembly; tb_assembly_processor := t_assembly_processor; tb_assembly_os := t_assembly_os; tb_assembly_ref := t_assembly_ref; tb_assembly_ref_processor := t_assembly_ref_processor; tb_assembly_ref_os := t_assembly_ref_os; tb_file := t_file; tb_exported_type := t_exported_type; tb_manifest_resource := t_manifest_resource; tb_nested_class := t_nested_class; tb_generic_param := t_generic_param; tb_method_spec := t_method_spec; tb_generic_param_constraint := t_generic_param_constraint |}.

(** mod.rs:232-238 and 250-255: [HeapSizeFlags::from_bits] rejects unknown bits. *)
Definition heap_size_flags (b : N) : option N := if b <? 8 then Some b else None.

(** [u64::count_ones] / the loop of mod.rs:273-280: the row counts, spread over the 64
    table numbers. *)
Fixpoint spread (present : N) (i : N) (n : nat) (raw : list N) : list N :=
  match n with
  | O => []
  | S n' => if N.testbit present i
            then match raw with
                 | c :: raw' => c :: spread present (i + 1) n' raw'
                 | [] => []
                 end
            else 0 :: spread present (i + 1) n' raw
  end.
Fixpoint count_ones (present : N) (i : N) (n : nat) : N :=
  match n with
  | O => 0
  | S n' => (if N.testbit present i then 1 else 0) + count_ones present (i + 1) n'
  end.

(** mod.rs:282-361: the widths. *)
Definition make_env (flags : N) (counts : list N) : tenv := {|
  row_counts := counts;
  wide_table_handles := map (fun c => 65535 <? c) counts;
  wide_string := has flags 1; wide_guid := has flags 2; wide_blob := has flags 4;
  wide_type_def_or_ref := is_coded_index_wide (large_row_size mask_type_def_or_ref) tables_type_def_or_ref counts;
  wide_has_constant := is_coded_index_wide (large_row_size mask_has_constant) tables_has_constant counts;
  wide_has_custom_attribute := is_coded_index_wide (large_row_size mask_has_custom_attribute) tables_has_custom_attribute counts;
  wide_has_field_marshal := is_coded_index_wide (large_row_size mask_has_field_marshal) tables_has_field_marshal counts;
  wide_has_decl_security := is_coded_index_wide (large_row_size mask_has_decl_security) tables_has_decl_security counts;
  wide_member_ref_parent := is_coded_index_wide (large_row_size mask_member_ref_parent) tables_member_ref_parent counts;
  wide_has_semantics := is_coded_index_wide (large_row_size mask_has_semantics) tables_has_semantics counts;
  wide_method_def_or_ref := is_coded_index_wide (large_row_size mask_method_def_or_ref) tables_method_def_or_ref counts;
  wide_member_forwarded := is_coded_index_wide (large_row_size mask_member_forwarded) tables_member_forwarded counts;
  wide_implementation := is_coded_index_wide (large_row_size mask_implementation) tables_implementation counts;
  wide_custom_attribute_type := is_coded_index_wide (large_row_size mask_custom_attribute_type) tables_custom_attribute_type counts;
  wide_resolution_scope := is_coded_index_wide (large_row_size mask_resolution_scope) tables_resolution_scope counts;
  wide_type_or_method_def := is_coded_index_wide (large_row_size mask_type_or_method_def) tables_type_or_method_def counts |}.

(** mod.rs:241-363, [TableReader::read], on a cursor.  The results of the two [advance]
    calls are ignored. *)
Definition read_table_stream (p : profile) : M reader tables :=
  let bad := "Invalid metadata header"%string in
  advance p 6 ;;;
  b <- rd p 1 bad ;;
  flags <- ok_or (heap_size_flags b) bad ;;
  advance p 1 ;;;
  present <- rd p 8 bad ;;
  rd p 8 bad ;;;
  raw <- read_array p 4 (count_ones present 0 64) ;;
  raw <- ok_or raw bad ;;
  let counts := spread present 0 64 (map le_dec (chunks 4 (N.to_nat (count_ones present 0 64)) raw)) in
  read_tables p (make_env flags counts).

(** mod.rs:137-139: indexing a table with a handle, [self.0[h.into() - 1]].  The subtraction
    is on [usize]. *)
Definition table_index {A} (p : profile) (rows : list A) (h : N) : res unit A :=
  match u_sub p 64 h 1 with
  | None => Panic "attempt to subtract with overflow"
  | Some i => match nth_error rows (N.to_nat i) with
              | Some r => Ok r tt
              | None => Panic "index out of bounds"
              end
  end.

(** The [From<usize>] implementations of the handles: all add one, except
    interface_impl.rs:19-23. *)
Definition handle_of_position (t : table) (x : N) : N :=
  match t with
  | TInterfaceImpl => x
  | _ => x + 1
  end.


(** Uniform names for the per-table and per-kind readers, so that one statement can range over
    all of them.  Pure dispatch, no behaviour of its own. *)
From Coq Require Import NArith List Bool.
From Verif Require Import Base BinaryReader Tables SpecTables.
Import ListNotations.
Open Scope N_scope.

(** tables/mod.rs:512-843: the reader of each coded-index kind. *)
Definition coded_reader (k : coded) (p : profile) (E : tenv) : M reader row_ref :=
  match k with
  | KTypeDefOrRef => read_type_def_or_ref_handle p E
  | KHasConstant => read_has_constant_handle p E
  | KHasCustomAttribute => read_has_custom_attribute_handle p E
  | KHasFieldMarshal => read_has_field_marshal_handle p E
  | KHasDeclSecurity => read_has_decl_security_handle p E
  | KMemberRefParent => read_member_ref_parent_handle p E
  | KHasSemantics => read_has_semantics_handle p E
  | KMethodDefOrRef => read_method_def_or_ref_handle p E
  | KMemberForwarded => read_member_forwarded_handle p E
  | KImplementation => read_implementation_handle p E
  | KCustomAttributeType => read_custom_attribute_type_handle p E
  | KResolutionScope => read_resolution_scope_handle p E
  | KTypeOrMethodDef => read_type_or_method_def_handle p E
  end.

(** tables/mod.rs:428-489: the reader of a column that indexes one table, for the tables that
    are indexed that way. *)
Definition index_reader (t : table) (p : profile) (E : tenv) : option (M reader N) :=
  match t with
  | TTypeDef => Some (read_type_def_handle p E)
  | TField => Some (read_field_handle p E)
  | TMethodDef => Some (read_method_def_handle p E)
  | TParam => Some (read_param_handle p E)
  | TEvent => Some (read_event_handle p E)
  | TProperty => Some (read_property_handle p E)
  | TModuleRef => Some (read_module_ref_handle p E)
  | TAssemblyRef => Some (read_assembly_ref_handle p E)
  | TGenericParam => Some (read_generic_param_handle p E)
  | _ => None
  end.

(** tables/mod.rs:183-188, [TableRow::read_row]. *)
Definition row_reader (t : table) (p : profile) (E : tenv) : M reader row :=
  match t with
  | TModule => r <- read_module p E ;; ret (RModule r)
  | TTypeRef => r <- read_type_ref p E ;; ret (RTypeRef r)
  | TTypeDef => r <- read_type_def p E ;; ret (RTypeDef r)
  | TField => r <- read_field p E ;; ret (RField r)
  | TMethodDef => r <- read_method_def p E ;; ret (RMethodDef r)
  | TParam => r <- read_param p E ;; ret (RParam r)
  | TInterfaceImpl => r <- read_interface_impl p E ;; ret (RInterfaceImpl r)
  | TMemberRef => r <- read_member_ref p E ;; ret (RMemberRef r)
  | TConstant => r <- read_constant p E ;; ret (RConstant r)
  | TCustomAttribute => r <- read_custom_attribute p E ;; ret (RCustomAttribute r)
  | TFieldMarshal => r <- read_field_marshal p E ;; ret (RFieldMarshal r)
  | TDeclSecurity => r <- read_decl_security p E ;; ret (RDeclSecurity r)
  | TClassLayout => r <- read_class_layout p E ;; ret (RClassLayout r)
  | TFieldLayout => r <- read_field_layout p E ;; ret (RFieldLayout r)
  | TStandaloneSig => r <- read_standalone_sig p E ;; ret (RStandaloneSig r)
  | TEventMap => r <- read_event_map p E ;; ret (REventMap r)
  | TEvent => r <- read_event p E ;; ret (REvent r)
  | TPropertyMap => r <- read_property_map p E ;; ret (RPropertyMap r)
  | TProperty => r <- read_property p E ;; ret (RProperty r)
  | TMethodSemantics => r <- read_method_semantics p E ;; ret (RMethodSemantics r)
  | TMethodImpl => r <- read_method_impl p E ;; ret (RMethodImpl r)
  | TModuleRef => r <- read_module_ref p E ;; ret (RModuleRef r)
  | TTypeSpec => r <- read_type_spec p E ;; ret (RTypeSpec r)
  | TImplMap => r <- read_impl_map p E ;; ret (RImplMap r)
  | TFieldRva => r <- read_field_rva p E ;; ret (RFieldRva r)
  | TAssembly => r <- read_assembly p E ;; ret (RAssembly r)
  | TAssemblyProcessor => r <- read_assembly_processor p E ;; ret (RAssemblyProcessor r)
  | TAssemblyOs => r <- read_assembly_os p E ;; ret (RAssemblyOs r)
  | TAssemblyRef => r <- read_assembly_ref p E ;; ret (RAssemblyRef r)
  | TAssemblyRefProcessor => r <- read_assembly_ref_processor p E ;; ret (RAssemblyRefProcessor r)
  | TAssemblyRefOs => r <- read_assembly_ref_os p E ;; ret (RAssemblyRefOs r)
  | TFile => r <- read_file p E ;; ret (RFile r)
  | TExportedType => r <- read_exported_type p E ;; ret (RExportedType r)
  | TManifestResource => r <- read_manifest_resource p E ;; ret (RManifestResource r)
  | TNestedClass => r <- read_nested_class p E ;; ret (RNestedClass r)
  | TGenericParam => r <- read_generic_param p E ;; ret (RGenericParam r)
  | TMethodSpec => r <- read_method_spec p E ;; ret (RMethodSpec r)
  | TGenericParamConstraint => r <- read_generic_param_constraint p E ;; ret (RGenericParamConstraint r)
  end.

Definition row_table (r : row) : table :=
  match r with
  | RModule _ => TModule
  | RTypeRef _ => TTypeRef
  | RTypeDef _ => TTypeDef
  | RField _ => TField
  | RMethodDef _ => TMethodDef
  | RParam _ => TParam
  | RInterfaceImpl _ => TInterfaceImpl
  | RMemberRef _ => TMemberRef
  | RConstant _ => TConstant
  | RCustomAttribute _ => TCustomAttribute
  | RFieldMarshal _ => TFieldMarshal
  | RDeclSecurity _ => TDeclSecurity
  | RClassLayout _ => TClassLayout
  | RFieldLayout _ => TFieldLayout
  | RStandaloneSig _ => TStandaloneSig
  | REventMap _ => TEventMap
  | REvent _ => TEvent
  | RPropertyMap _ => TPropertyMap
  | RProperty _ => TProperty
  | RMethodSemantics _ => TMethodSemantics
  | RMethodImpl _ => TMethodImpl
  | RModuleRef _ => TModuleRef
  | RTypeSpec _ => TTypeSpec
  | RImplMap _ => TImplMap
  | RFieldRva _ => TFieldRva
  | RAssembly _ => TAssembly
  | RAssemblyProcessor _ => TAssemblyProcessor
  | RAssemblyOs _ => TAssemblyOs
  | RAssemblyRef _ => TAssemblyRef
  | RAssemblyRefProcessor _ => TAssemblyRefProcessor
  | RAssemblyRefOs _ => TAssemblyRefOs
  | RFile _ => TFile
  | RExportedType _ => TExportedType
  | RManifestResource _ => TManifestResource
  | RNestedClass _ => TNestedClass
  | RGenericParam _ => TGenericParam
  | RMethodSpec _ => TMethodSpec
  | RGenericParamConstraint _ => TGenericParamConstraint
  end.

(** The width flag of each coded-index kind (tables/mod.rs:216-229). *)
Definition kind_wide (k : coded) (E : tenv) : bool :=
  match k with
  | KTypeDefOrRef => wide_type_def_or_ref E
  | KHasConstant => wide_has_constant E
  | KHasCustomAttribute => wide_has_custom_attribute E
  | KHasFieldMarshal => wide_has_field_marshal E
  | KHasDeclSecurity => wide_has_decl_security E
  | KMemberRefParent => wide_member_ref_parent E
  | KHasSemantics => wide_has_semantics E
  | KMethodDefOrRef => wide_method_def_or_ref E
  | KMemberForwarded => wide_member_forwarded E
  | KImplementation => wide_implementation E
  | KCustomAttributeType => wide_custom_attribute_type E
  | KResolutionScope => wide_resolution_scope E
  | KTypeOrMethodDef => wide_type_or_method_def E
  end.

(** ** Where the reader and the standard agree *)

(** The tables that the reader looks at for the width of a coded index: all target tables
    except DeclSecurity for HasCustomAttribute. *)
Definition counted (k : coded) (t : table) : Prop :=
  (exists tag, In (tag, t) (coded_tags k)) /\ ~ (k = KHasCustomAttribute /\ t = TDeclSecurity).

(** The row counts are not in the gap between the standard and the reader: either every target
    table has fewer than [2 ^ (16 - bits)] rows, or one the reader counts has more than that. *)
Definition settled (rows : table -> N) (k : coded) : Prop :=
  (forall tag t, In (tag, t) (coded_tags k) -> rows t < 2 ^ (16 - coded_bits k)) \/
  (exists t, counted k t /\ 2 ^ (16 - coded_bits k) < rows t).

(** The one target that the reader does not know. *)
Definition supported (c : column) : Prop :=
  match c with CCoded KHasCustomAttribute TDeclSecurity _ => False | _ => True end.


(** ECMA-335 II.22 and II.24.2.6: what the metadata table stream looks like.  Independent of
    the reader: it only uses the row records (the values users see) and the table names. *)
From Coq Require Import NArith List Bool.
From Coq.Strings Require Import Byte.
From Verif Require Import Base Attributes SpecAttributes Tables.
Import ListNotations.
Open Scope N_scope.

(** The tables and their numbers, in the order in which they are stored. *)
Definition ecma_tables : list (N * table) :=
  [
   (0, TModule);
   (1, TTypeRef);
   (2, TTypeDef);
   (4, TField);
   (6, TMethodDef);
   (8, TParam);
   (9, TInterfaceImpl);
   (10, TMemberRef);
   (11, TConstant);
   (12, TCustomAttribute);
   (13, TFieldMarshal);
   (14, TDeclSecurity);
   (15, TClassLayout);
   (16, TFieldLayout);
   (17, TStandaloneSig);
   (18, TEventMap);
   (20, TEvent);
   (21, TPropertyMap);
   (23, TProperty);
   (24, TMethodSemantics);
   (25, TMethodImpl);
   (26, TModuleRef);
   (27, TTypeSpec);
   (28, TImplMap);
   (29, TFieldRva);
   (32, TAssembly);
   (33, TAssemblyProcessor);
   (34, TAssemblyOs);
   (35, TAssemblyRef);
   (36, TAssemblyRefProcessor);
   (37, TAssemblyRefOs);
   (38, TFile);
   (39, TExportedType);
   (40, TManifestResource);
   (41, TNestedClass);
   (42, TGenericParam);
   (43, TMethodSpec);
   (44, TGenericParamConstraint)].

(** The kinds of coded index (II.24.2.6). *)
Inductive coded :=
| KTypeDefOrRef | KHasConstant | KHasCustomAttribute | KHasFieldMarshal | KHasDeclSecurity | KMemberRefParent | KHasSemantics | KMethodDefOrRef | KMemberForwarded | KImplementation | KCustomAttributeType | KResolutionScope | KTypeOrMethodDef.

(** Number of tag bits. *)
Definition coded_bits (k : coded) : N :=
  match k with
  | KTypeDefOrRef => 2 | KHasConstant => 2 | KHasCustomAttribute => 5 | KHasFieldMarshal => 1
  | KHasDeclSecurity => 2 | KMemberRefParent => 3 | KHasSemantics => 1 | KMethodDefOrRef => 1
  | KMemberForwarded => 1 | KImplementation => 2 | KCustomAttributeType => 3
  | KResolutionScope => 2 | KTypeOrMethodDef => 1
  end.

(** The table designated by each tag. *)
Definition coded_tags (k : coded) : list (N * table) :=
  match k with
  | KTypeDefOrRef => [(0, TTypeDef); (1, TTypeRef); (2, TTypeSpec)]
  | KHasConstant => [(0, TField); (1, TParam); (2, TProperty)]
  | KHasCustomAttribute => [(0, TMethodDef); (1, TField); (2, TTypeRef); (3, TTypeDef); (4, TParam); (5, TInterfaceImpl); (6, TMemberRef); (7, TModule); (8, TDeclSecurity); (9, TProperty); (10, TEvent); (11, TStandaloneSig); (12, TModuleRef); (13, TTypeSpec); (14, TAssembly); (15, TAssemblyRef); (16, TFile); (17, TExportedType); (18, TManifestResource); (19, TGenericParam); (20, TGenericParamConstraint); (21, TMethodSpec)]
  | KHasFieldMarshal => [(0, TField); (1, TParam)]
  | KHasDeclSecurity => [(0, TTypeDef); (1, TMethodDef); (2, TAssembly)]
  | KMemberRefParent => [(0, TTypeDef); (1, TTypeRef); (2, TModuleRef); (3, TMethodDef); (4, TTypeSpec)]
  | KHasSemantics => [(0, TEvent); (1, TProperty)]
  | KMethodDefOrRef => [(0, TMethodDef); (1, TMemberRef)]
  | KMemberForwarded => [(0, TField); (1, TMethodDef)]
  | KImplementation => [(0, TFile); (1, TAssemblyRef); (2, TExportedType)]
  | KCustomAttributeType => [(2, TMethodDef); (3, TMemberRef)]
  | KResolutionScope => [(0, TModule); (1, TModuleRef); (2, TAssemblyRef); (3, TTypeRef)]
  | KTypeOrMethodDef => [(0, TTypeDef); (1, TMethodDef)]
  end.

(** Sizes that determine the layout: are heap offsets wide, and how many rows has each table. *)
Record sizes := { big_strings : bool; big_guids : bool; big_blobs : bool; rows : table -> N }.

(** Width in bytes of an index into one table. *)
Definition index_width (sz : sizes) (t : table) : N := if rows sz t <? 2 ^ 16 then 2 else 4.

(** Width of a coded index: two bytes when every target table has fewer than
    [2 ^ (16 - bits)] rows. *)
Definition coded_width (sz : sizes) (k : coded) : N :=
  if forallb (fun tt => rows sz (snd tt) <? 2 ^ (16 - coded_bits k)) (coded_tags k) then 2 else 4.

(** A vector of row counts, indexed by table number, gives these numbers of rows. *)
Definition counts_in (counts : list N) (rows : table -> N) : Prop :=
  forall n t, In (n, t) ecma_tables -> nth (N.to_nat n) counts 0 = rows t.

Definition heap_width (big : bool) : N := if big then 4 else 2.

(** A column together with the value stored in it. *)
Inductive column :=
| CInt (width value : N)
| CString (offset : N) | CGuid (index : N) | CBlob (offset : N)
| CRow (t : table) (row : N)
| CCoded (k : coded) (t : table) (row : N).

Definition column_width (sz : sizes) (c : column) : N :=
  match c with
  | CInt w _ => w
  | CString _ => heap_width (big_strings sz)
  | CGuid _ => heap_width (big_guids sz)
  | CBlob _ => heap_width (big_blobs sz)
  | CRow t _ => index_width sz t
  | CCoded k _ _ => coded_width sz k
  end.

(** [column_value c v]: the number [v] is what is stored for [c]. *)
Definition column_value (c : column) (v : N) : Prop :=
  match c with
  | CInt _ x | CString x | CGuid x | CBlob x | CRow _ x => v = x
  | CCoded k t i => exists tag, In (tag, t) (coded_tags k) /\ v = i * 2 ^ coded_bits k + tag
  end.

(** The little-endian bytes of a column; the value must fit. *)
Definition column_bytes (sz : sizes) (c : column) (bs : list byte) : Prop :=
  exists v, column_value c v /\ v < 256 ^ column_width sz c /\
            bs = le_enc (N.to_nat (column_width sz c)) v.

(** The bytes of consecutive columns. *)
Inductive columns_bytes (sz : sizes) : list column -> list byte -> Prop :=
| cols_nil : columns_bytes sz [] []
| cols_cons c cs b bs : column_bytes sz c b -> columns_bytes sz cs bs ->
    columns_bytes sz (c :: cs) (b ++ bs).

(** A row of any table. *)
Inductive row :=
| RModule (r : module_row)
| RTypeRef (r : type_ref_row)
| RTypeDef (r : type_def_row)
| RField (r : field_row)
| RMethodDef (r : method_def_row)
| RParam (r : param_row)
| RInterfaceImpl (r : interface_impl_row)
| RMemberRef (r : member_ref_row)
| RConstant (r : constant_row)
| RCustomAttribute (r : custom_attribute_row)
| RFieldMarshal (r : field_marshal_row)
| RDeclSecurity (r : decl_security_row)
| RClassLayout (r : class_layout_row)
| RFieldLayout (r : field_layout_row)
| RStandaloneSig (r : standalone_sig_row)
| REventMap (r : event_map_row)
| REvent (r : event_row)
| RPropertyMap (r : property_map_row)
| RProperty (r : property_row)
| RMethodSemantics (r : method_semantics_row)
| RMethodImpl (r : method_impl_row)
| RModuleRef (r : module_ref_row)
| RTypeSpec (r : type_spec_row)
| RImplMap (r : impl_map_row)
| RFieldRva (r : field_rva_row)
| RAssembly (r : assembly_row)
| RAssemblyProcessor (r : assembly_processor_row)
| RAssemblyOs (r : assembly_os_row)
| RAssemblyRef (r : assembly_ref_row)
| RAssemblyRefProcessor (r : assembly_ref_processor_row)
| RAssemblyRefOs (r : assembly_ref_os_row)
| RFile (r : file_row)
| RExportedType (r : exported_type_row)
| RManifestResource (r : manifest_resource_row)
| RNestedClass (r : nested_class_row)
| RGenericParam (r : generic_param_row)
| RMethodSpec (r : method_spec_row)
| RGenericParamConstraint (r : generic_param_constraint_row).

(** Zero stands for an absent size (ClassLayout). *)
Definition optional_size (w : N) (o : option N) : Prop :=
  match o with Some x => w = x /\ x <> 0 | None => w = 0 end.

(** II.22.2-39: the columns of every table. *)
Inductive row_columns : row -> list column -> Prop :=
| rc_Module generation name mvid encid encbaseid :
    row_columns (RModule {| md_name := name; md_version := mvid |})
      [CInt 2 generation; CString name; CGuid mvid; CGuid encid; CGuid encbaseid]
| rc_TypeRef resolution_scope name namespace :
    row_columns (RTypeRef {| tr_resolution_scope := resolution_scope; tr_name := name; tr_namespace := namespace |})
      [CCoded KResolutionScope (ref_table resolution_scope) (ref_index resolution_scope); CString name; CString namespace]
| rc_TypeDef attributes w_attributes name namespace extends field_list method_list :
    type_attributes_word w_attributes attributes ->
    row_columns (RTypeDef {| td_attributes := attributes; td_name := name; td_namespace := namespace; td_extends := extends; td_field_list := field_list; td_method_list := method_list |})
      [CInt 4 w_attributes; CString name; CString namespace; CCoded KTypeDefOrRef (ref_table extends) (ref_index extends); CRow TField field_list; CRow TMethodDef method_list]
| rc_Field attributes w_attributes name signature :
    field_attributes_word w_attributes attributes ->
    row_columns (RField {| fd_attributes := attributes; fd_name := name; fd_signature := signature |})
      [CInt 2 w_attributes; CString name; CBlob signature]
| rc_MethodDef rva impl_attributes w_impl_attributes attributes w_attributes name signature param_list :
    method_impl_attributes_word w_impl_attributes impl_attributes ->
    method_attributes_word w_attributes attributes ->
    row_columns (RMethodDef {| me_rva := rva; me_impl_attributes := impl_attributes; me_attributes := attributes; me_name := name; me_signature := signature; me_param_list := param_list |})
      [CInt 4 rva; CInt 2 w_impl_attributes; CInt 2 w_attributes; CString name; CBlob signature; CRow TParam param_list]
| rc_Param attributes w_attributes index_ name :
    param_attributes_word w_attributes attributes ->
    row_columns (RParam {| pm_attributes := attributes; pm_index := index_; pm_name := name |})
      [CInt 2 w_attributes; CInt 2 index_; CString name]
| rc_InterfaceImpl class_ interface :
    row_columns (RInterfaceImpl {| ii_class := class_; ii_interface := interface |})
      [CRow TTypeDef class_; CCoded KTypeDefOrRef (ref_table interface) (ref_index interface)]
| rc_MemberRef parent name signature :
    row_columns (RMemberRef {| mr_parent := parent; mr_name := name; mr_signature := signature |})
      [CCoded KMemberRefParent (ref_table parent) (ref_index parent); CString name; CBlob signature]
| rc_Constant type pad parent value :
    row_columns (RConstant {| cn_type := type; cn_parent := parent; cn_value := value |})
      [CInt 1 (constant_type_code type); CInt 1 pad;
       CCoded KHasConstant (ref_table parent) (ref_index parent); CBlob value]
| rc_CustomAttribute parent attribute_type value :
    row_columns (RCustomAttribute {| ca_parent := parent; ca_attribute_type := attribute_type; ca_value := value |})
      [CCoded KHasCustomAttribute (ref_table parent) (ref_index parent); CCoded KCustomAttributeType (ref_table attribute_type) (ref_index attribute_type); CBlob value]
| rc_FieldMarshal parent native_type :
    row_columns (RFieldMarshal {| fm_parent := parent; fm_native_type := native_type |})
      [CCoded KHasFieldMarshal (ref_table parent) (ref_index parent); CBlob native_type]
| rc_DeclSecurity action parent permission_set :
    row_columns (RDeclSecurity {| ds_action := action; ds_parent := parent; ds_permission_set := permission_set |})
      [CInt 2 action; CCoded KHasDeclSecurity (ref_table parent) (ref_index parent); CBlob permission_set]
| rc_ClassLayout packing_size w_packing_size class_size w_class_size parent :
    optional_size w_packing_size packing_size ->
    optional_size w_class_size class_size ->
    row_columns (RClassLayout {| cl_packing_size := packing_size; cl_class_size := class_size; cl_parent := parent |})
      [CInt 2 w_packing_size; CInt 4 w_class_size; CRow TTypeDef parent]
| rc_FieldLayout offset field_ :
    row_columns (RFieldLayout {| fl_offset := offset; fl_field := field_ |})
      [CInt 4 offset; CRow TField field_]
| rc_StandaloneSig signature :
    row_columns (RStandaloneSig {| ss_signature := signature |})
      [CBlob signature]
| rc_EventMap parent event_list :
    row_columns (REventMap {| em_parent := parent; em_event_list := event_list |})
      [CRow TTypeDef parent; CRow TEvent event_list]
| rc_Event attributes w_attributes name event_type :
    event_attributes_word w_attributes attributes ->
    row_columns (REvent {| ev_attributes := attributes; ev_name := name; ev_event_type := event_type |})
      [CInt 2 w_attributes; CString name; CCoded KTypeDefOrRef (ref_table event_type) (ref_index event_type)]
| rc_PropertyMap parent property_list :
    row_columns (RPropertyMap {| pp_parent := parent; pp_property_list := property_list |})
      [CRow TTypeDef parent; CRow TProperty property_list]
| rc_Property attributes w_attributes name signature :
    property_attributes_word w_attributes attributes ->
    row_columns (RProperty {| py_attributes := attributes; py_name := name; py_signature := signature |})
      [CInt 2 w_attributes; CString name; CBlob signature]
| rc_MethodSemantics semantics method_ association :
    row_columns (RMethodSemantics {| ms_semantics := semantics; ms_method := method_; ms_association := association |})
      [CInt 2 (method_semantics_code semantics); CRow TMethodDef method_; CCoded KHasSemantics (ref_table association) (ref_index association)]
| rc_MethodImpl class_ body_ declaration :
    row_columns (RMethodImpl {| mm_class := class_; mm_body := body_; mm_declaration := declaration |})
      [CRow TTypeDef class_; CCoded KMethodDefOrRef (ref_table body_) (ref_index body_); CCoded KMethodDefOrRef (ref_table declaration) (ref_index declaration)]
| rc_ModuleRef name :
    row_columns (RModuleRef {| mo_name := name |})
      [CString name]
| rc_TypeSpec signature :
    row_columns (RTypeSpec {| ts_signature := signature |})
      [CBlob signature]
| rc_ImplMap attributes w_attributes member_ name module_ :
    pinvoke_attributes_word w_attributes attributes ->
    row_columns (RImplMap {| im_attributes := attributes; im_member := member_; im_name := name; im_module := module_ |})
      [CInt 2 w_attributes; CCoded KMemberForwarded (ref_table member_) (ref_index member_); CString name; CRow TModuleRef module_]
| rc_FieldRva rva field_ :
    row_columns (RFieldRva {| fr_rva := rva; fr_field := field_ |})
      [CInt 4 rva; CRow TField field_]
| rc_Assembly hash_algorithm major_version minor_version build_number revision_number flags w_flags public_key name culture :
    assembly_flags_word w_flags flags ->
    row_columns (RAssembly {| as_hash_algorithm := hash_algorithm; as_major_version := major_version; as_minor_version := minor_version; as_build_number := build_number; as_revision_number := revision_number; as_flags := flags; as_public_key := public_key; as_name := name; as_culture := culture |})
      [CInt 4 (hash_algorithm_code hash_algorithm); CInt 2 major_version; CInt 2 minor_version; CInt 2 build_number; CInt 2 revision_number; CInt 4 w_flags; CBlob public_key; CString name; CString culture]
| rc_AssemblyProcessor processor :
    row_columns (RAssemblyProcessor {| ap_processor := processor |})
      [CInt 4 processor]
| rc_AssemblyOs os_platform_id os_major os_minor :
    row_columns (RAssemblyOs {| ao_os_platform_id := os_platform_id; ao_os_major := os_major; ao_os_minor := os_minor |})
      [CInt 4 os_platform_id; CInt 4 os_major; CInt 4 os_minor]
| rc_AssemblyRef major_version minor_version build_number revision_number flags w_flags public_key_or_token name culture hash_value :
    assembly_flags_word w_flags flags ->
    row_columns (RAssemblyRef {| ar_major_version := major_version; ar_minor_version := minor_version; ar_build_number := build_number; ar_revision_number := revision_number; ar_flags := flags; ar_public_key_or_token := public_key_or_token; ar_name := name; ar_culture := culture; ar_hash_value := hash_value |})
      [CInt 2 major_version; CInt 2 minor_version; CInt 2 build_number; CInt 2 revision_number; CInt 4 w_flags; CBlob public_key_or_token; CString name; CString culture; CBlob hash_value]
| rc_AssemblyRefProcessor processor assembly_ref :
    row_columns (RAssemblyRefProcessor {| rp_processor := processor; rp_assembly_ref := assembly_ref |})
      [CInt 4 processor; CRow TAssemblyRef assembly_ref]
| rc_AssemblyRefOs os_platform_id os_major os_minor assembly_ref :
    row_columns (RAssemblyRefOs {| ro_os_platform_id := os_platform_id; ro_os_major := os_major; ro_os_minor := os_minor; ro_assembly_ref := assembly_ref |})
      [CInt 4 os_platform_id; CInt 4 os_major; CInt 4 os_minor; CRow TAssemblyRef assembly_ref]
| rc_File contains_metadata name hash_value :
    row_columns (RFile {| fi_contains_metadata := contains_metadata; fi_name := name; fi_hash_value := hash_value |})
      [CInt 4 (if contains_metadata then 0 else 1); CString name; CBlob hash_value]
| rc_ExportedType flags w_flags type_def_id name namespace implementation :
    type_attributes_word w_flags flags ->
    row_columns (RExportedType {| et_flags := flags; et_type_def_id := type_def_id; et_name := name; et_namespace := namespace; et_implementation := implementation |})
      [CInt 4 w_flags; CInt 4 type_def_id; CString name; CString namespace; CCoded KImplementation (ref_table implementation) (ref_index implementation)]
| rc_ManifestResource offset public_ name implements :
    row_columns (RManifestResource {| mf_offset := offset; mf_public := public_; mf_name := name; mf_implements := implements |})
      [CInt 4 offset; CInt 4 (if public_ then 1 else 2); CString name; CCoded KImplementation (ref_table implements) (ref_index implements)]
| rc_NestedClass nested enclosing :
    row_columns (RNestedClass {| nc_nested := nested; nc_enclosing := enclosing |})
      [CRow TTypeDef nested; CRow TTypeDef enclosing]
| rc_GenericParam index_ attributes w_attributes owner name :
    generic_param_attributes_word w_attributes attributes ->
    row_columns (RGenericParam {| gp_index := index_; gp_attributes := attributes; gp_owner := owner; gp_name := name |})
      [CInt 2 index_; CInt 2 w_attributes; CCoded KTypeOrMethodDef (ref_table owner) (ref_index owner); CString name]
| rc_MethodSpec method_ instantiation :
    row_columns (RMethodSpec {| sp_method := method_; sp_instantiation := instantiation |})
      [CCoded KMethodDefOrRef (ref_table method_) (ref_index method_); CBlob instantiation]
| rc_GenericParamConstraint owner constraint_ :
    row_columns (RGenericParamConstraint {| gc_owner := owner; gc_constraint := constraint_ |})
      [CRow TGenericParam owner; CCoded KTypeDefOrRef (ref_table constraint_) (ref_index constraint_)].

(** The bytes of consecutive rows. *)
Inductive rows_bytes (sz : sizes) : list row -> list byte -> Prop :=
| rows_nil : rows_bytes sz [] []
| rows_cons r rs cs b bs : row_columns r cs -> columns_bytes sz cs b -> rows_bytes sz rs bs ->
    rows_bytes sz (r :: rs) (b ++ bs).

(** The rows of one table of a collection of tables. *)
Definition rows_of (T : tables) (t : table) : list row :=
  match t with
  | TModule => map RModule (tb_module T)
  | TTypeRef => map RTypeRef (tb_type_ref T)
  | TTypeDef => map RTypeDef (tb_type_def T)
  | TField => map RField (tb_field T)
  | TMethodDef => map RMethodDef (tb_method_def T)
  | TParam => map RParam (tb_param T)
  | TInterfaceImpl => map RInterfaceImpl (tb_interface_impl T)
  | TMemberRef => map RMemberRef (tb_member_ref T)
  | TConstant => map RConstant (tb_constant T)
  | TCustomAttribute => map RCustomAttribute (tb_custom_attribute T)
  | TFieldMarshal => map RFieldMarshal (tb_field_marshal T)
  | TDeclSecurity => map RDeclSecurity (tb_decl_security T)
  | TClassLayout => map RClassLayout (tb_class_layout T)
  | TFieldLayout => map RFieldLayout (tb_field_layout T)
  | TStandaloneSig => map RStandaloneSig (tb_standalone_sig T)
  | TEventMap => map REventMap (tb_event_map T)
  | TEvent => map REvent (tb_event T)
  | TPropertyMap => map RPropertyMap (tb_property_map T)
  | TProperty => map RProperty (tb_property T)
  | TMethodSemantics => map RMethodSemantics (tb_method_semantics T)
  | TMethodImpl => map RMethodImpl (tb_method_impl T)
  | TModuleRef => map RModuleRef (tb_module_ref T)
  | TTypeSpec => map RTypeSpec (tb_type_spec T)
  | TImplMap => map RImplMap (tb_impl_map T)
  | TFieldRva => map RFieldRva (tb_field_rva T)
  | TAssembly => map RAssembly (tb_assembly T)
  | TAssemblyProcessor => map RAssemblyProcessor (tb_assembly_processor T)
  | TAssemblyOs => map RAssemblyOs (tb_assembly_os T)
  | TAssemblyRef => map RAssemblyRef (tb_assembly_ref T)
  | TAssemblyRefProcessor => map RAssemblyRefProcessor (tb_assembly_ref_processor T)
  | TAssemblyRefOs => map RAssemblyRefOs (tb_assembly_ref_os T)
  | TFile => map RFile (tb_file T)
  | TExportedType => map RExportedType (tb_exported_type T)
  | TManifestResource => map RManifestResource (tb_manifest_resource T)
  | TNestedClass => map RNestedClass (tb_nested_class T)
  | TGenericParam => map RGenericParam (tb_generic_param T)
  | TMethodSpec => map RMethodSpec (tb_method_spec T)
  | TGenericParamConstraint => map RGenericParamConstraint (tb_generic_param_constraint T)
  end.

Definition sizes_of (strings guids blobs : bool) (T : tables) : sizes :=
  {| big_strings := strings; big_guids := guids; big_blobs := blobs;
     rows := fun t => len (rows_of T t) |}.

(** The bytes of consecutive tables. *)
Inductive tables_bytes (sz : sizes) (T : tables) : list (N * table) -> list byte -> Prop :=
| tabs_nil : tables_bytes sz T [] []
| tabs_cons i t ts b bs : rows_bytes sz (rows_of T t) b -> tables_bytes sz T ts bs ->
    tables_bytes sz T ((i, t) :: ts) (b ++ bs).

Definition bit (b : bool) (k : N) : N := if b then 2 ^ k else 0.

(** The tables listed in the header, and the bit mask that lists them. *)
Definition listed_tables (valid : table -> bool) : list (N * table) :=
  filter (fun it => valid (snd it)) ecma_tables.
Definition mask_of (l : list (N * table)) : N :=
  fold_right N.add 0 (map (fun it => 2 ^ fst it) l).

(** II.24.2.6: the whole stream.  [valid] says which tables are listed in the header: at least
    the non-empty ones. *)
Definition stream_bytes (T : tables) (bs : list byte) : Prop :=
  exists strings guids blobs reserved1 reserved2 (valid : table -> bool) sorted body,
    len reserved1 = 6 /\ sorted < 2 ^ 64 /\
    (forall t, valid t = false -> rows_of T t = []) /\
    (forall t, len (rows_of T t) < 2 ^ 32) /\
    tables_bytes (sizes_of strings guids blobs T) T ecma_tables body /\
    bs = reserved1 ++ [nb (bit strings 0 + bit guids 1 + bit blobs 2)] ++ [reserved2] ++
         le_enc 8 (mask_of (listed_tables valid)) ++
         le_enc 8 sorted ++
         flat_map (fun it => le_enc 4 (len (rows_of T (snd it)))) (listed_tables valid) ++
         body.


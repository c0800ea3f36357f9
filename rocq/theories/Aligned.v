(** Where in memory the image is read: the readers of BinaryReader.v, Pe.v, Tables.v and Blob.v once more,
    for data that starts at the address [base].  Rust requires that the address of a number or of a [repr(C)]
    structure is a multiple of its alignment; an access elsewhere is undefined, although most machines tolerate
    it.  The readers below are those of the other files except that such an access is undefined.  Of the
    structures of the image, [Pe64OptionalHeader] has the alignment 8 and all others 4; a number has the
    alignment of its size (x86-64 and aarch64).  The metadata root is in
    AlignedImage.v and method bodies are in AlignedBody.v.
    Also here: which bytes may be read as a [bool] or a [char]. *)
From Coq Require Import NArith String List Bool.
From Coq.Strings Require Import Byte.
From Verif Require Import Base Utf BinaryReader Pe Attributes Tables Blob SpecTables.
Import ListNotations.
Open Scope N_scope.

Definition misaligned : string := "misaligned pointer dereference".

(** binary_reader/src/lib.rs:31-64: the unsafe accesses.  The bounds are checked before the access; [a] is the
    alignment of the type.  [slice::from_raw_parts] needs an aligned pointer even for no elements. *)
Definition typed (a base : N) (m : M reader (option (list byte))) : M reader (option (list byte)) :=
  fun r => match m r with
           | Ok (Some d) r' => if (base + rpos r) mod a =? 0 then Ok (Some d) r' else Ub misaligned
           | other => other
           end.

(** lib.rs:31-37, [peek], for a type of [n] bytes with the alignment [a]. *)
Definition peek_at (a base : N) (p : profile) (n : N) := typed a base (peek p n).
(** lib.rs:39-43, [read]. *)
Definition read_at (a base : N) (p : profile) (n : N) := typed a base (read p n).
(** lib.rs:55-64, [read_array]. *)
Definition read_array_at (a base : N) (p : profile) (sz cnt : N) := typed a base (read_array p sz cnt).

(** [read::<uN>()] with [ok_or_else]; see [rd]. *)
Definition rd_at (base : N) (p : profile) (n : N) (e : string) : M reader N :=
  o <- read_at n base p n ;; match o with Some d => ret (le_dec d) | None => fail e end.

(** ** pe.rs *)

(** pe.rs:170-216, [PeInfo::parse_pe]. *)
Definition parse_pe_m_at (base : N) (p : profile) : M reader pe_info :=
  mz <- peek_array p 1 2 ;;
  (if negb (opt_bytes_eqb mz MZ) then fail "Not a PE file" else ret tt) ;;;
  goto 0x3c ;;;
  off <- peek_at 4 base p 4 ;;
  match off with
  | None => fail "Unexpected end of file"
  | Some o =>
      goto (le_dec o) ;;;
      sig <- read_array p 1 4 ;;
      (if negb (opt_bytes_eqb sig PE00) then fail "Invalid PE file" else ret tt) ;;;
      h <- read_at 4 base p PE_HEADER_SIZE ;;
      h <- ok_or h "Invalid PE file" ;;
      let header := dec_pe_header h in
      magic <- peek_at 2 base p 2 ;;
      magic <- ok_or magic "Invalid PE file" ;;
      opt <- (if le_dec magic =? 0x10b then
                o <- read_at 4 base p PE32_SIZE ;; o <- ok_or o "Invalid PE file" ;; ret (dec_pe32 o)
              else if le_dec magic =? 0x20b then
                o <- read_at 8 base p PE64_SIZE ;; o <- ok_or o "Invalid PE file" ;; ret (dec_pe64 o)
              else fail "Invalid PE file") ;;
      dirs <- read_array_at 4 base p RVA_AND_SIZE_SIZE (o_number_of_data_directories opt) ;;
      dirs <- ok_or dirs "Invalid PE file" ;;
      secs <- read_array_at 4 base p PE_SECTION_SIZE (h_number_of_sections header) ;;
      secs <- ok_or secs "Invalid PE file" ;;
      ret {| pi_header := header; pi_optional_header := opt;
             pi_data_directories :=
               map dec_rva_and_size
                 (chunks (N.to_nat RVA_AND_SIZE_SIZE)
                         (N.to_nat (o_number_of_data_directories opt)) dirs);
             pi_sections :=
               map dec_pe_section
                 (chunks (N.to_nat PE_SECTION_SIZE)
                         (N.to_nat (h_number_of_sections header)) secs) |}
  end.

(** pe.rs:170-171. *)
Definition parse_pe_at (base : N) (p : profile) (data : list byte) : res reader pe_info :=
  parse_pe_m_at base p (new_reader data).

(** ** metadata/blob/blob_reader.rs *)

(** See [rd_be]. *)
Definition rd_be_at (base : N) (p : profile) (n : N) (e : string) : M reader N :=
  o <- read_at n base p n ;; match o with Some d => ret (be_dec d) | None => fail e end.

(** blob_reader.rs:48-57, [read_compressed_u32]. *)
Definition read_compressed_u32_at (base : N) (p : profile) : M reader N :=
  x <- pk p 1 blob_eof ;;
  if N.land x 0xc0 =? 0xc0 then
    v <- rd_be_at base p 4 blob_eof ;;
    match u_sub p 32 v 0xc0000000 with
    | Some n => ret n
    | None => panic "attempt to subtract with overflow"
    end
  else if N.land x 0x80 =? 0x80 then
    v <- rd_be_at base p 2 blob_eof ;;
    match u_sub p 32 v 0x8000 with
    | Some n => ret n
    | None => panic "attempt to subtract with overflow"
    end
  else rd p 1 blob_eof.

(** blob_reader.rs:59-65, [read_utf16_str]. *)
Definition read_utf16_str_at (base : N) (p : profile) : M reader (list N) :=
  fun r =>
    let n := len (rdata r) / 2 in
    (o <- read_array_at 2 base p 2 n ;;
     match o with
     | Some d => ret (map le_dec (chunks 2 (N.to_nat n) d))
     | None => fail "Unable to read UTF16 string from blob"
     end) r.

(** blob_reader.rs:24-34 and blob_heap.rs:15-17: the reader of the blob at offset [h] in a heap at the address
    [base], and the address of the blob. *)
Definition blob_heap_reader_at (base : N) (p : profile) (heap : list byte) (h : N) : res unit (reader * N) :=
  if len heap <? h then Panic "slice index out of range"
  else
    let data := skipn (N.to_nat h) heap in
    match read_compressed_u32_at (base + h) p (mkReader data 0) with
    | Ok n r =>
        if len data <? rpos r + n then Panic "slice index out of range"
        else Ok (mkReader (sub_list (rpos r) n data) 0, base + h + rpos r) tt
    | Err _ _ => Err "Couldn't read blob length" tt
    | Panic w => Panic w
    | Ub w => Ub w
    | NoFuel => NoFuel
    end.

(** vm/reflection/assembly.rs:232-241, [get_string]: the code units of the literal at offset [h] in a heap of
    user strings at the address [base].  Simplified: failures keep their texts; the two [ok()?] make them [None]. *)
Definition user_string_at (base : N) (p : profile) (heap : list byte) (h : N) : res unit (list N) :=
  match blob_heap_reader_at base p heap h with
  | Ok (r, a) _ =>
      match read_utf16_str_at a p r with
      | Ok us _ => Ok us tt
      | Err e _ => Err e tt
      | Panic w => Panic w
      | Ub w => Ub w
      | NoFuel => NoFuel
      end
  | Err e _ => Err e tt
  | Panic w => Panic w
  | Ub w => Ub w
  | NoFuel => NoFuel
  end.

(** ** metadata/tables.  File names are relative to that directory. *)

(** mod.rs:428-510: the common shape of the handle readers, a [u32] if wide and a [u16] otherwise, then [as usize]. *)
Definition read_index_at (base : N) (p : profile) (wide : bool) : M reader N :=
  if wide then rd_at base p 4 eof else rd_at base p 2 eof.
(** mod.rs:428-433. *)
Definition read_type_def_handle_at (base : N) (p : profile) (E : tenv) : M reader N :=
  read_index_at base p (at_table false (wide_table_handles E) TTypeDef).
(** mod.rs:435-440. *)
Definition read_field_handle_at (base : N) (p : profile) (E : tenv) : M reader N :=
  read_index_at base p (at_table false (wide_table_handles E) TField).
(** mod.rs:442-447. *)
Definition read_method_def_handle_at (base : N) (p : profile) (E : tenv) : M reader N :=
  read_index_at base p (at_table false (wide_table_handles E) TMethodDef).
(** mod.rs:449-454. *)
Definition read_param_handle_at (base : N) (p : profile) (E : tenv) : M reader N :=
  read_index_at base p (at_table false (wide_table_handles E) TParam).
(** mod.rs:456-461. *)
Definition read_event_handle_at (base : N) (p : profile) (E : tenv) : M reader N :=
  read_index_at base p (at_table false (wide_table_handles E) TEvent).
(** mod.rs:463-468. *)
Definition read_property_handle_at (base : N) (p : profile) (E : tenv) : M reader N :=
  read_index_at base p (at_table false (wide_table_handles E) TProperty).
(** mod.rs:470-475. *)
Definition read_module_ref_handle_at (base : N) (p : profile) (E : tenv) : M reader N :=
  read_index_at base p (at_table false (wide_table_handles E) TModuleRef).
(** mod.rs:477-482. *)
Definition read_assembly_ref_handle_at (base : N) (p : profile) (E : tenv) : M reader N :=
  read_index_at base p (at_table false (wide_table_handles E) TAssemblyRef).
(** mod.rs:484-489. *)
Definition read_generic_param_handle_at (base : N) (p : profile) (E : tenv) : M reader N :=
  read_index_at base p (at_table false (wide_table_handles E) TGenericParam).
(** mod.rs:491-496. *)
Definition read_string_handle_at (base : N) (p : profile) (E : tenv) : M reader N := read_index_at base p (wide_string E).
(** mod.rs:498-503. *)
Definition read_guid_handle_at (base : N) (p : profile) (E : tenv) : M reader N := read_index_at base p (wide_guid E).
(** mod.rs:505-510. *)
Definition read_blob_handle_at (base : N) (p : profile) (E : tenv) : M reader N := read_index_at base p (wide_blob E).

(** mod.rs:513-520 (and the same lines of every coded-index reader): split the value into tag and index with [TAG_MASK]; [count_ones] of a mask [2^k - 1] is [k]. *)
Definition read_coded_at (base : N) (p : profile) (wide : bool) (mask : N) (tag_table : N -> option table)
    (e : string) : M reader row_ref :=
  data <- read_index_at base p wide ;;
  let tag := N.land data mask in
  let index := N.shiftr (N.ldiff data mask) (popcount5 mask) in
  match tag_table tag with
  | Some t => ret (mkRef t index)
  | None => fail e
  end.
(** coded_index/type_def_or_ref.rs, mod.rs:512-533. *)
Definition read_type_def_or_ref_handle_at (base : N) (p : profile) (E : tenv) : M reader row_ref :=
  read_coded_at base p (wide_type_def_or_ref E) mask_type_def_or_ref tag_type_def_or_ref "Invalid TypeDefOrRef tag".
(** coded_index/has_constant.rs, mod.rs:535-554. *)
Definition read_has_constant_handle_at (base : N) (p : profile) (E : tenv) : M reader row_ref :=
  read_coded_at base p (wide_has_constant E) mask_has_constant tag_has_constant "Invalid HasConstant tag".
(** coded_index/has_custom_attribute.rs, mod.rs:556-599. *)
Definition read_has_custom_attribute_handle_at (base : N) (p : profile) (E : tenv) : M reader row_ref :=
  read_coded_at base p (wide_has_custom_attribute E) mask_has_custom_attribute tag_has_custom_attribute "Invalid HasCustomAttribute tag".
(** coded_index/has_field_marshal.rs, mod.rs:601-623. *)
Definition read_has_field_marshal_handle_at (base : N) (p : profile) (E : tenv) : M reader row_ref :=
  read_coded_at base p (wide_has_field_marshal E) mask_has_field_marshal tag_has_field_marshal "Invalid HasFieldMarshal tag".
(** coded_index/has_decl_security.rs, mod.rs:625-648. *)
Definition read_has_decl_security_handle_at (base : N) (p : profile) (E : tenv) : M reader row_ref :=
  read_coded_at base p (wide_has_decl_security E) mask_has_decl_security tag_has_decl_security "Invalid HasDeclSecurity tag".
(** coded_index/member_ref_parent.rs, mod.rs:650-675. *)
Definition read_member_ref_parent_handle_at (base : N) (p : profile) (E : tenv) : M reader row_ref :=
  read_coded_at base p (wide_member_ref_parent E) mask_member_ref_parent tag_member_ref_parent "Invalid MemberRefParent tag".
(** coded_index/has_semantics.rs, mod.rs:677-697. *)
Definition read_has_semantics_handle_at (base : N) (p : profile) (E : tenv) : M reader row_ref :=
  read_coded_at base p (wide_has_semantics E) mask_has_semantics tag_has_semantics "Invalid HasSemantics tag".
(** coded_index/method_def_or_ref.rs, mod.rs:699-721. *)
Definition read_method_def_or_ref_handle_at (base : N) (p : profile) (E : tenv) : M reader row_ref :=
  read_coded_at base p (wide_method_def_or_ref E) mask_method_def_or_ref tag_method_def_or_ref "Invalid MethodDefOrRef tag".
(** coded_index/member_forwarded.rs, mod.rs:723-745. *)
Definition read_member_forwarded_handle_at (base : N) (p : profile) (E : tenv) : M reader row_ref :=
  read_coded_at base p (wide_member_forwarded E) mask_member_forwarded tag_member_forwarded "Invalid MemberForwarded tag".
(** coded_index/implementation.rs, mod.rs:747-768. *)
Definition read_implementation_handle_at (base : N) (p : profile) (E : tenv) : M reader row_ref :=
  read_coded_at base p (wide_implementation E) mask_implementation tag_implementation "Invalid Implementation tag".
(** coded_index/custom_attribute_type.rs, mod.rs:770-792. *)
Definition read_custom_attribute_type_handle_at (base : N) (p : profile) (E : tenv) : M reader row_ref :=
  read_coded_at base p (wide_custom_attribute_type E) mask_custom_attribute_type tag_custom_attribute_type "Invalid CustomAttributeType tag".
(** coded_index/resolution_scope.rs, mod.rs:794-818. *)
Definition read_resolution_scope_handle_at (base : N) (p : profile) (E : tenv) : M reader row_ref :=
  read_coded_at base p (wide_resolution_scope E) mask_resolution_scope tag_resolution_scope "Invalid ResolutionScope tag".
(** coded_index/type_or_method_def.rs, mod.rs:820-842. *)
Definition read_type_or_method_def_handle_at (base : N) (p : profile) (E : tenv) : M reader row_ref :=
  read_coded_at base p (wide_type_or_method_def E) mask_type_or_method_def tag_type_or_method_def "Invalid TypeOrMethodDef tag".

(** module.rs:29-37. The result of reading [generation] is ignored, even an error. *)
Definition read_module_at (base : N) (p : profile) (E : tenv) : M reader module_row :=
  read_at 2 base p 2 ;;;
  name <- read_string_handle_at base p E ;;
  version <- read_guid_handle_at base p E ;;
  read_guid_handle_at base p E ;;;
  read_guid_handle_at base p E ;;;
  ret {| md_name := name; md_version := version |}.
(** type_ref.rs:30-36. *)
Definition read_type_ref_at (base : N) (p : profile) (E : tenv) : M reader type_ref_row :=
  x0 <- read_resolution_scope_handle_at base p E ;;
  x1 <- read_string_handle_at base p E ;;
  x2 <- read_string_handle_at base p E ;;
  ret {| tr_resolution_scope := x0; tr_name := x1; tr_namespace := x2 |}.
(** type_def.rs:149-158. *)
Definition read_type_def_at (base : N) (p : profile) (E : tenv) : M reader type_def_row :=
  raw0 <- rd_at base p 4 eof ;;
  x0 <- attr (type_attributes_from_raw raw0) ;;
  x1 <- read_string_handle_at base p E ;;
  x2 <- read_string_handle_at base p E ;;
  x3 <- read_type_def_or_ref_handle_at base p E ;;
  x4 <- read_field_handle_at base p E ;;
  x5 <- read_method_def_handle_at base p E ;;
  ret {| td_attributes := x0; td_name := x1; td_namespace := x2; td_extends := x3; td_field_list := x4; td_method_list := x5 |}.
(** field.rs:89-95. *)
Definition read_field_at (base : N) (p : profile) (E : tenv) : M reader field_row :=
  raw0 <- rd_at base p 2 eof ;;
  x0 <- attr (field_attributes_from_raw raw0) ;;
  x1 <- read_string_handle_at base p E ;;
  x2 <- read_blob_handle_at base p E ;;
  ret {| fd_attributes := x0; fd_name := x1; fd_signature := x2 |}.
(** method_def.rs:162-171. *)
Definition read_method_def_at (base : N) (p : profile) (E : tenv) : M reader method_def_row :=
  x0 <- rd_at base p 4 eof ;;
  raw1 <- rd_at base p 2 eof ;;
  x1 <- attr (method_impl_attributes_from_raw raw1) ;;
  raw2 <- rd_at base p 2 eof ;;
  x2 <- attr (method_attributes_from_raw raw2) ;;
  x3 <- read_string_handle_at base p E ;;
  x4 <- read_blob_handle_at base p E ;;
  x5 <- read_param_handle_at base p E ;;
  ret {| me_rva := x0; me_impl_attributes := x1; me_attributes := x2; me_name := x3; me_signature := x4; me_param_list := x5 |}.
(** param.rs:52-58. *)
Definition read_param_at (base : N) (p : profile) (E : tenv) : M reader param_row :=
  raw0 <- rd_at base p 2 eof ;;
  let x0 := param_attributes_from_raw raw0 in
  x1 <- rd_at base p 2 eof ;;
  x2 <- read_string_handle_at base p E ;;
  ret {| pm_attributes := x0; pm_index := x1; pm_name := x2 |}.
(** interface_impl.rs:29-34. *)
Definition read_interface_impl_at (base : N) (p : profile) (E : tenv) : M reader interface_impl_row :=
  x0 <- read_type_def_handle_at base p E ;;
  x1 <- read_type_def_or_ref_handle_at base p E ;;
  ret {| ii_class := x0; ii_interface := x1 |}.
(** member_ref.rs:30-36. *)
Definition read_member_ref_at (base : N) (p : profile) (E : tenv) : M reader member_ref_row :=
  x0 <- read_member_ref_parent_handle_at base p E ;;
  x1 <- read_string_handle_at base p E ;;
  x2 <- read_blob_handle_at base p E ;;
  ret {| mr_parent := x0; mr_name := x1; mr_signature := x2 |}.
(** constant.rs:77-88. The result of [advance] is ignored. *)
Definition read_constant_at (base : N) (p : profile) (E : tenv) : M reader constant_row :=
  raw <- rd_at base p 1 eof ;;
  type <- attr (constant_type_from_raw raw) ;;
  advance p 1 ;;;
  parent <- read_has_constant_handle_at base p E ;;
  value <- read_blob_handle_at base p E ;;
  ret {| cn_type := type; cn_parent := parent; cn_value := value |}.
(** custom_attribute.rs:30-36. *)
Definition read_custom_attribute_at (base : N) (p : profile) (E : tenv) : M reader custom_attribute_row :=
  x0 <- read_has_custom_attribute_handle_at base p E ;;
  x1 <- read_custom_attribute_type_handle_at base p E ;;
  x2 <- read_blob_handle_at base p E ;;
  ret {| ca_parent := x0; ca_attribute_type := x1; ca_value := x2 |}.
(** field_marshal.rs:29-34. *)
Definition read_field_marshal_at (base : N) (p : profile) (E : tenv) : M reader field_marshal_row :=
  x0 <- read_has_field_marshal_handle_at base p E ;;
  x1 <- read_blob_handle_at base p E ;;
  ret {| fm_parent := x0; fm_native_type := x1 |}.
(** decl_security.rs:34-40. *)
Definition read_decl_security_at (base : N) (p : profile) (E : tenv) : M reader decl_security_row :=
  x0 <- rd_at base p 2 eof ;;
  x1 <- read_has_decl_security_handle_at base p E ;;
  x2 <- read_blob_handle_at base p E ;;
  ret {| ds_action := x0; ds_parent := x1; ds_permission_set := x2 |}.
(** class_layout.rs:30-50. *)
Definition read_class_layout_at (base : N) (p : profile) (E : tenv) : M reader class_layout_row :=
  raw0 <- rd_at base p 2 eof ;;
  let x0 := nonzero raw0 in
  raw1 <- rd_at base p 4 eof ;;
  let x1 := nonzero raw1 in
  x2 <- read_type_def_handle_at base p E ;;
  ret {| cl_packing_size := x0; cl_class_size := x1; cl_parent := x2 |}.
(** field_layout.rs:29-34. *)
Definition read_field_layout_at (base : N) (p : profile) (E : tenv) : M reader field_layout_row :=
  x0 <- rd_at base p 4 eof ;;
  x1 <- read_field_handle_at base p E ;;
  ret {| fl_offset := x0; fl_field := x1 |}.
(** standalone_sig.rs:28-32. *)
Definition read_standalone_sig_at (base : N) (p : profile) (E : tenv) : M reader standalone_sig_row :=
  x0 <- read_blob_handle_at base p E ;;
  ret {| ss_signature := x0 |}.
(** event_map.rs:29-34. *)
Definition read_event_map_at (base : N) (p : profile) (E : tenv) : M reader event_map_row :=
  x0 <- read_type_def_handle_at base p E ;;
  x1 <- read_event_handle_at base p E ;;
  ret {| em_parent := x0; em_event_list := x1 |}.
(** event.rs:46-52. *)
Definition read_event_at (base : N) (p : profile) (E : tenv) : M reader event_row :=
  raw0 <- rd_at base p 2 eof ;;
  let x0 := event_attributes_from_raw raw0 in
  x1 <- read_string_handle_at base p E ;;
  x2 <- read_type_def_or_ref_handle_at base p E ;;
  ret {| ev_attributes := x0; ev_name := x1; ev_event_type := x2 |}.
(** property_map.rs:28-33. *)
Definition read_property_map_at (base : N) (p : profile) (E : tenv) : M reader property_map_row :=
  x0 <- read_type_def_handle_at base p E ;;
  x1 <- read_property_handle_at base p E ;;
  ret {| pp_parent := x0; pp_property_list := x1 |}.
(** property.rs:48-54. *)
Definition read_property_at (base : N) (p : profile) (E : tenv) : M reader property_row :=
  raw0 <- rd_at base p 2 eof ;;
  let x0 := property_attributes_from_raw raw0 in
  x1 <- read_string_handle_at base p E ;;
  x2 <- read_blob_handle_at base p E ;;
  ret {| py_attributes := x0; py_name := x1; py_signature := x2 |}.
(** method_semantics.rs:60-66. *)
Definition read_method_semantics_at (base : N) (p : profile) (E : tenv) : M reader method_semantics_row :=
  raw0 <- rd_at base p 2 eof ;;
  x0 <- attr (method_semantics_from_raw raw0) ;;
  x1 <- read_method_def_handle_at base p E ;;
  x2 <- read_has_semantics_handle_at base p E ;;
  ret {| ms_semantics := x0; ms_method := x1; ms_association := x2 |}.
(** method_impl.rs:30-36. *)
Definition read_method_impl_at (base : N) (p : profile) (E : tenv) : M reader method_impl_row :=
  x0 <- read_type_def_handle_at base p E ;;
  x1 <- read_method_def_or_ref_handle_at base p E ;;
  x2 <- read_method_def_or_ref_handle_at base p E ;;
  ret {| mm_class := x0; mm_body := x1; mm_declaration := x2 |}.
(** module_ref.rs:27-31. *)
Definition read_module_ref_at (base : N) (p : profile) (E : tenv) : M reader module_ref_row :=
  x0 <- read_string_handle_at base p E ;;
  ret {| mo_name := x0 |}.
(** type_spec.rs:28-32. *)
Definition read_type_spec_at (base : N) (p : profile) (E : tenv) : M reader type_spec_row :=
  x0 <- read_blob_handle_at base p E ;;
  ret {| ts_signature := x0 |}.
(** impl_map.rs:89-96. *)
Definition read_impl_map_at (base : N) (p : profile) (E : tenv) : M reader impl_map_row :=
  raw0 <- rd_at base p 2 eof ;;
  x0 <- attr (pinvoke_attributes_from_raw raw0) ;;
  x1 <- read_member_forwarded_handle_at base p E ;;
  x2 <- read_string_handle_at base p E ;;
  x3 <- read_module_ref_handle_at base p E ;;
  ret {| im_attributes := x0; im_member := x1; im_name := x2; im_module := x3 |}.
(** field_rva.rs:29-34. *)
Definition read_field_rva_at (base : N) (p : profile) (E : tenv) : M reader field_rva_row :=
  x0 <- rd_at base p 4 eof ;;
  x1 <- read_field_handle_at base p E ;;
  ret {| fr_rva := x0; fr_field := x1 |}.
(** assembly.rs:53-82. *)
Definition read_assembly_at (base : N) (p : profile) (E : tenv) : M reader assembly_row :=
  raw0 <- rd_at base p 4 eof ;;
  x0 <- attr (hash_algorithm_from_raw raw0) ;;
  x1 <- rd_at base p 2 eof ;;
  x2 <- rd_at base p 2 eof ;;
  x3 <- rd_at base p 2 eof ;;
  x4 <- rd_at base p 2 eof ;;
  raw5 <- rd_at base p 4 eof ;;
  let x5 := assembly_flags_from_raw raw5 in
  x6 <- read_blob_handle_at base p E ;;
  x7 <- read_string_handle_at base p E ;;
  x8 <- read_string_handle_at base p E ;;
  ret {| as_hash_algorithm := x0; as_major_version := x1; as_minor_version := x2; as_build_number := x3; as_revision_number := x4; as_flags := x5; as_public_key := x6; as_name := x7; as_culture := x8 |}.
(** assembly_processor.rs:28-32. *)
Definition read_assembly_processor_at (base : N) (p : profile) (E : tenv) : M reader assembly_processor_row :=
  x0 <- rd_at base p 4 eof ;;
  ret {| ap_processor := x0 |}.
(** assembly_os.rs:30-36. *)
Definition read_assembly_os_at (base : N) (p : profile) (E : tenv) : M reader assembly_os_row :=
  x0 <- rd_at base p 4 eof ;;
  x1 <- rd_at base p 4 eof ;;
  x2 <- rd_at base p 4 eof ;;
  ret {| ao_os_platform_id := x0; ao_os_major := x1; ao_os_minor := x2 |}.
(** assembly_ref.rs:36-56. *)
Definition read_assembly_ref_at (base : N) (p : profile) (E : tenv) : M reader assembly_ref_row :=
  x0 <- rd_at base p 2 eof ;;
  x1 <- rd_at base p 2 eof ;;
  x2 <- rd_at base p 2 eof ;;
  x3 <- rd_at base p 2 eof ;;
  raw4 <- rd_at base p 4 eof ;;
  let x4 := assembly_flags_from_raw raw4 in
  x5 <- read_blob_handle_at base p E ;;
  x6 <- read_string_handle_at base p E ;;
  x7 <- read_string_handle_at base p E ;;
  x8 <- read_blob_handle_at base p E ;;
  ret {| ar_major_version := x0; ar_minor_version := x1; ar_build_number := x2; ar_revision_number := x3; ar_flags := x4; ar_public_key_or_token := x5; ar_name := x6; ar_culture := x7; ar_hash_value := x8 |}.
(** assembly_ref_processor.rs:29-34. *)
Definition read_assembly_ref_processor_at (base : N) (p : profile) (E : tenv) : M reader assembly_ref_processor_row :=
  x0 <- rd_at base p 4 eof ;;
  x1 <- read_assembly_ref_handle_at base p E ;;
  ret {| rp_processor := x0; rp_assembly_ref := x1 |}.
(** assembly_ref_os.rs:31-38. *)
Definition read_assembly_ref_os_at (base : N) (p : profile) (E : tenv) : M reader assembly_ref_os_row :=
  x0 <- rd_at base p 4 eof ;;
  x1 <- rd_at base p 4 eof ;;
  x2 <- rd_at base p 4 eof ;;
  x3 <- read_assembly_ref_handle_at base p E ;;
  ret {| ro_os_platform_id := x0; ro_os_major := x1; ro_os_minor := x2; ro_assembly_ref := x3 |}.
(** file.rs:29-39. *)
Definition read_file_at (base : N) (p : profile) (E : tenv) : M reader file_row :=
  raw0 <- rd_at base p 4 eof ;;
  let x0 := is_zero raw0 in
  x1 <- read_string_handle_at base p E ;;
  x2 <- read_blob_handle_at base p E ;;
  ret {| fi_contains_metadata := x0; fi_name := x1; fi_hash_value := x2 |}.
(** exported_type.rs:32-40. *)
Definition read_exported_type_at (base : N) (p : profile) (E : tenv) : M reader exported_type_row :=
  raw0 <- rd_at base p 4 eof ;;
  x0 <- attr (type_attributes_from_raw raw0) ;;
  x1 <- rd_at base p 4 eof ;;
  x2 <- read_string_handle_at base p E ;;
  x3 <- read_string_handle_at base p E ;;
  x4 <- read_implementation_handle_at base p E ;;
  ret {| et_flags := x0; et_type_def_id := x1; et_name := x2; et_namespace := x3; et_implementation := x4 |}.
(** manifest_resource.rs:31-42. *)
Definition read_manifest_resource_at (base : N) (p : profile) (E : tenv) : M reader manifest_resource_row :=
  x0 <- rd_at base p 4 eof ;;
  raw1 <- rd_at base p 4 eof ;;
  let x1 := is_one raw1 in
  x2 <- read_string_handle_at base p E ;;
  x3 <- read_implementation_handle_at base p E ;;
  ret {| mf_offset := x0; mf_public := x1; mf_name := x2; mf_implements := x3 |}.
(** nested_class.rs:28-33. *)
Definition read_nested_class_at (base : N) (p : profile) (E : tenv) : M reader nested_class_row :=
  x0 <- read_type_def_handle_at base p E ;;
  x1 <- read_type_def_handle_at base p E ;;
  ret {| nc_nested := x0; nc_enclosing := x1 |}.
(** generic_param.rs:68-75. *)
Definition read_generic_param_at (base : N) (p : profile) (E : tenv) : M reader generic_param_row :=
  x0 <- rd_at base p 2 eof ;;
  raw1 <- rd_at base p 2 eof ;;
  x1 <- attr (generic_param_attributes_from_raw raw1) ;;
  x2 <- read_type_or_method_def_handle_at base p E ;;
  x3 <- read_string_handle_at base p E ;;
  ret {| gp_index := x0; gp_attributes := x1; gp_owner := x2; gp_name := x3 |}.
(** method_spec.rs:29-34. *)
Definition read_method_spec_at (base : N) (p : profile) (E : tenv) : M reader method_spec_row :=
  x0 <- read_method_def_or_ref_handle_at base p E ;;
  x1 <- read_blob_handle_at base p E ;;
  ret {| sp_method := x0; sp_instantiation := x1 |}.
(** generic_param_constraint.rs:29-34. *)
Definition read_generic_param_constraint_at (base : N) (p : profile) (E : tenv) : M reader generic_param_constraint_row :=
  x0 <- read_generic_param_handle_at base p E ;;
  x1 <- read_type_def_or_ref_handle_at base p E ;;
  ret {| gc_owner := x0; gc_constraint := x1 |}.

(** mod.rs:375-416, [read_tables]. *)
Definition read_tables_at (base : N) (p : profile) (E : tenv) : M reader tables :=
  t_module <- read_table E TModule (read_module_at base p E) ;;
  t_type_ref <- read_table E TTypeRef (read_type_ref_at base p E) ;;
  t_type_def <- read_table E TTypeDef (read_type_def_at base p E) ;;
  t_field <- read_table E TField (read_field_at base p E) ;;
  t_method_def <- read_table E TMethodDef (read_method_def_at base p E) ;;
  t_param <- read_table E TParam (read_param_at base p E) ;;
  t_interface_impl <- read_table E TInterfaceImpl (read_interface_impl_at base p E) ;;
  t_member_ref <- read_table E TMemberRef (read_member_ref_at base p E) ;;
  t_constant <- read_table E TConstant (read_constant_at base p E) ;;
  t_custom_attribute <- read_table E TCustomAttribute (read_custom_attribute_at base p E) ;;
  t_field_marshal <- read_table E TFieldMarshal (read_field_marshal_at base p E) ;;
  t_decl_security <- read_table E TDeclSecurity (read_decl_security_at base p E) ;;
  t_class_layout <- read_table E TClassLayout (read_class_layout_at base p E) ;;
  t_field_layout <- read_table E TFieldLayout (read_field_layout_at base p E) ;;
  t_standalone_sig <- read_table E TStandaloneSig (read_standalone_sig_at base p E) ;;
  t_event_map <- read_table E TEventMap (read_event_map_at base p E) ;;
  t_event <- read_table E TEvent (read_event_at base p E) ;;
  t_property_map <- read_table E TPropertyMap (read_property_map_at base p E) ;;
  t_property <- read_table E TProperty (read_property_at base p E) ;;
  t_method_semantics <- read_table E TMethodSemantics (read_method_semantics_at base p E) ;;
  t_method_impl <- read_table E TMethodImpl (read_method_impl_at base p E) ;;
  t_module_ref <- read_table E TModuleRef (read_module_ref_at base p E) ;;
  t_type_spec <- read_table E TTypeSpec (read_type_spec_at base p E) ;;
  t_impl_map <- read_table E TImplMap (read_impl_map_at base p E) ;;
  t_field_rva <- read_table E TFieldRva (read_field_rva_at base p E) ;;
  t_assembly <- read_table E TAssembly (read_assembly_at base p E) ;;
  t_assembly_processor <- read_table E TAssemblyProcessor (read_assembly_processor_at base p E) ;;
  t_assembly_os <- read_table E TAssemblyOs (read_assembly_os_at base p E) ;;
  t_assembly_ref <- read_table E TAssemblyRef (read_assembly_ref_at base p E) ;;
  t_assembly_ref_processor <- read_table E TAssemblyRefProcessor (read_assembly_ref_processor_at base p E) ;;
  t_assembly_ref_os <- read_table E TAssemblyRefOs (read_assembly_ref_os_at base p E) ;;
  t_file <- read_table E TFile (read_file_at base p E) ;;
  t_exported_type <- read_table E TExportedType (read_exported_type_at base p E) ;;
  t_manifest_resource <- read_table E TManifestResource (read_manifest_resource_at base p E) ;;
  t_nested_class <- read_table E TNestedClass (read_nested_class_at base p E) ;;
  t_generic_param <- read_table E TGenericParam (read_generic_param_at base p E) ;;
  t_method_spec <- read_table E TMethodSpec (read_method_spec_at base p E) ;;
  t_generic_param_constraint <- read_table E TGenericParamConstraint (read_generic_param_constraint_at base p E) ;;
  ret {| tb_module := t_module; tb_type_ref := t_type_ref; tb_type_def := t_type_def; tb_field := t_field; tb_method_def := t_method_def; tb_param := t_param; tb_interface_impl := t_interface_impl; tb_member_ref := t_member_ref; tb_constant := t_constant; tb_custom_attribute := t_custom_attribute; tb_field_marshal := t_field_marshal; tb_decl_security := t_decl_security; tb_class_layout := t_class_layout; tb_field_layout := t_field_layout; tb_standalone_sig := t_standalone_sig; tb_event_map := t_event_map; tb_event := t_event; tb_property_map := t_property_map; tb_property := t_property; tb_method_semantics := t_method_semantics; tb_method_impl := t_method_impl; tb_module_ref := t_module_ref; tb_type_spec := t_type_spec; tb_impl_map := t_impl_map; tb_field_rva := t_field_rva; tb_assembly := t_assembly; tb_assembly_processor := t_assembly_processor; tb_assembly_os := t_assembly_os; tb_assembly_ref := t_assembly_ref; tb_assembly_ref_processor := t_assembly_ref_processor; tb_assembly_ref_os := t_assembly_ref_os; tb_file := t_file; tb_exported_type := t_exported_type; tb_manifest_resource := t_manifest_resource; tb_nested_class := t_nested_class; tb_generic_param := t_generic_param; tb_method_spec := t_method_spec; tb_generic_param_constraint := t_generic_param_constraint |}.
(** mod.rs:241-363, [TableReader::read], on a cursor. The results of the two [advance] calls are ignored. *)
Definition read_table_stream_at (base : N) (p : profile) : M reader tables :=
  let bad := "Invalid metadata header"%string in
  advance p 6 ;;;
  b <- rd_at base p 1 bad ;;
  flags <- ok_or (heap_size_flags b) bad ;;
  advance p 1 ;;;
  present <- rd_at base p 8 bad ;;
  rd_at base p 8 bad ;;;
  raw <- read_array_at 4 base p 4 (count_ones present 0 64) ;;
  raw <- ok_or raw bad ;;
  let counts := spread present 0 64 (map le_dec (chunks 4 (N.to_nat (count_ones present 0 64)) raw)) in
  read_tables_at base p (make_env flags counts).

(** mod.rs:183-188, [TableRow::read_row]; see [row_reader] (pure dispatch). *)
Definition row_reader_at (base : N) (t : table) (p : profile) (E : tenv) : M reader row :=
  match t with
  | TModule => r <- read_module_at base p E ;; ret (RModule r)
  | TTypeRef => r <- read_type_ref_at base p E ;; ret (RTypeRef r)
  | TTypeDef => r <- read_type_def_at base p E ;; ret (RTypeDef r)
  | TField => r <- read_field_at base p E ;; ret (RField r)
  | TMethodDef => r <- read_method_def_at base p E ;; ret (RMethodDef r)
  | TParam => r <- read_param_at base p E ;; ret (RParam r)
  | TInterfaceImpl => r <- read_interface_impl_at base p E ;; ret (RInterfaceImpl r)
  | TMemberRef => r <- read_member_ref_at base p E ;; ret (RMemberRef r)
  | TConstant => r <- read_constant_at base p E ;; ret (RConstant r)
  | TCustomAttribute => r <- read_custom_attribute_at base p E ;; ret (RCustomAttribute r)
  | TFieldMarshal => r <- read_field_marshal_at base p E ;; ret (RFieldMarshal r)
  | TDeclSecurity => r <- read_decl_security_at base p E ;; ret (RDeclSecurity r)
  | TClassLayout => r <- read_class_layout_at base p E ;; ret (RClassLayout r)
  | TFieldLayout => r <- read_field_layout_at base p E ;; ret (RFieldLayout r)
  | TStandaloneSig => r <- read_standalone_sig_at base p E ;; ret (RStandaloneSig r)
  | TEventMap => r <- read_event_map_at base p E ;; ret (REventMap r)
  | TEvent => r <- read_event_at base p E ;; ret (REvent r)
  | TPropertyMap => r <- read_property_map_at base p E ;; ret (RPropertyMap r)
  | TProperty => r <- read_property_at base p E ;; ret (RProperty r)
  | TMethodSemantics => r <- read_method_semantics_at base p E ;; ret (RMethodSemantics r)
  | TMethodImpl => r <- read_method_impl_at base p E ;; ret (RMethodImpl r)
  | TModuleRef => r <- read_module_ref_at base p E ;; ret (RModuleRef r)
  | TTypeSpec => r <- read_type_spec_at base p E ;; ret (RTypeSpec r)
  | TImplMap => r <- read_impl_map_at base p E ;; ret (RImplMap r)
  | TFieldRva => r <- read_field_rva_at base p E ;; ret (RFieldRva r)
  | TAssembly => r <- read_assembly_at base p E ;; ret (RAssembly r)
  | TAssemblyProcessor => r <- read_assembly_processor_at base p E ;; ret (RAssemblyProcessor r)
  | TAssemblyOs => r <- read_assembly_os_at base p E ;; ret (RAssemblyOs r)
  | TAssemblyRef => r <- read_assembly_ref_at base p E ;; ret (RAssemblyRef r)
  | TAssemblyRefProcessor => r <- read_assembly_ref_processor_at base p E ;; ret (RAssemblyRefProcessor r)
  | TAssemblyRefOs => r <- read_assembly_ref_os_at base p E ;; ret (RAssemblyRefOs r)
  | TFile => r <- read_file_at base p E ;; ret (RFile r)
  | TExportedType => r <- read_exported_type_at base p E ;; ret (RExportedType r)
  | TManifestResource => r <- read_manifest_resource_at base p E ;; ret (RManifestResource r)
  | TNestedClass => r <- read_nested_class_at base p E ;; ret (RNestedClass r)
  | TGenericParam => r <- read_generic_param_at base p E ;; ret (RGenericParam r)
  | TMethodSpec => r <- read_method_spec_at base p E ;; ret (RMethodSpec r)
  | TGenericParamConstraint => r <- read_generic_param_constraint_at base p E ;; ret (RGenericParamConstraint r)
  end.

(** ** Types for which not all bytes are values *)

(** lib.rs:31-37 and 97, [peek::<bool>()]: only 0 and 1 may be read as a [bool]. *)
Definition peek_bool (p : profile) : M reader (option bool) :=
  o <- peek p 1 ;;
  match o with
  | None => ret None
  | Some d => if le_dec d =? 0 then ret (Some false)
              else if le_dec d =? 1 then ret (Some true)
              else ub "invalid value for bool"
  end.

(** lib.rs:39-43 and 97, [read::<bool>()]. *)
Definition read_bool (p : profile) : M reader (option bool) :=
  o <- peek_bool p ;;
  match o with
  | None => ret None
  | Some b => advance p 1 ;;; ret (Some b)
  end.

(** lib.rs:31-37 and 98, [peek::<char>()]: only Unicode scalar values may be read as a [char], at an address
    that is a multiple of 4. *)
Definition peek_char (base : N) (p : profile) : M reader (option N) :=
  o <- peek_at 4 base p 4 ;;
  match o with
  | None => ret None
  | Some d => if (le_dec d <? 0xd800) || ((0xdfff <? le_dec d) && (le_dec d <? 0x110000)) then ret (Some (le_dec d))
              else ub "invalid value for char"
  end.

(** lib.rs:39-43 and 98, [read::<char>()]. *)
Definition read_char (base : N) (p : profile) : M reader (option N) :=
  o <- peek_char base p ;;
  match o with
  | None => ret None
  | Some c => advance p 4 ;;; ret (Some c)
  end.

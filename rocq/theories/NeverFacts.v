(** Programs that do not recurse: whatever they do, the budget of recursion plays no part in it. *)
From Coq Require Import NArith Lia String List Bool.
From Coq.Strings Require Import Byte.
From Verif Require Import Base Utf BinaryReader Pe Attributes Tables Blob Metadata Runtime Loader.
Import ListNotations.
Open Scope N_scope.

Definition never_res {S A} (r : res S A) : Prop := r <> NoFuel.
Definition never {S A} (m : M S A) : Prop := forall s, never_res (m s).

Lemma nv_bind {S A B} (m : M S A) (k : A -> M S B) : never m -> (forall a, never (k a)) -> never (bind m k).
Proof. intros Hm Hk s. unfold bind. specialize (Hm s). destruct (m s); try discriminate; [apply Hk|now elim Hm]. Qed.
Ltac nv_same m s H := specialize (H s); destruct (m s); try discriminate; now elim H.
Lemma nv_map_err {S A} (m : M S A) e : never m -> never (map_err m e).
Proof. intros H s. unfold map_err. nv_same m s H. Qed.
Lemma nv_unwrap_result {S A} (m : M S A) : never m -> never (unwrap_result m).
Proof. intros H s. unfold unwrap_result. nv_same m s H. Qed.
Lemma nv_try_m {S A} (m : M S A) : never m -> never (try_m m).
Proof. intros H s. unfold try_m. nv_same m s H. Qed.
Lemma nv_lift {S A} (m : M unit A) : never m -> never (S := S) (lift m).
Proof. intros H s. unfold lift. nv_same m tt H. Qed.
Lemma nv_on_reader {A} r (m : M reader A) : never m -> never (on_reader r m).
Proof. intros H s. unfold on_reader. nv_same m r H. Qed.
Lemma nv_with_reader {S A} r (m : M reader A) : never m -> never (S := S) (with_reader r m).
Proof. intros H s. unfold with_reader. nv_same m r H. Qed.
Lemma nv_ret {S A} (a : A) : never (S := S) (ret a).
Proof. discriminate. Qed.
Lemma nv_repeat_m {S A} (m : M S A) n : never m -> never (repeat_m n m).
Proof. intro H. induction n as [|n IH]; cbn [repeat_m]; [apply nv_ret|]. repeat (apply nv_bind; [assumption|intro]). apply nv_ret. Qed.
Lemma nv_map_m {S A B} (f : A -> M S B) l : (forall x, never (f x)) -> never (map_m f l).
Proof. intro H. induction l as [|x l IH]; cbn [map_m]; [apply nv_ret|]. apply nv_bind; [apply H|intro]. apply nv_bind; [exact IH|intro]. apply nv_ret. Qed.
Lemma nv_iter_m {S A} (f : A -> M S unit) l : (forall x, never (f x)) -> never (iter_m f l).
Proof. intro H. induction l as [|x l IH]; cbn [iter_m]; [apply nv_ret|]. apply nv_bind; [apply H|intro; exact IH]. Qed.

Create HintDb nv discriminated.

Ltac nv_step :=
  lazymatch goal with
  | |- never (bind _ _) => apply nv_bind; [|intro]
  | |- never (ovf ?o) => unfold ovf; destruct o
  | |- never (ret _) => apply nv_ret
  | |- never (fail _) => intro; discriminate
  | |- never (panic _) => intro; discriminate
  | |- never (ub _) => intro; discriminate
  | |- never get_state => intro; discriminate
  | |- never (put_state _) => intro; discriminate
  | |- never (ok_or ?o _) => unfold ok_or; destruct o
  | |- never (map_err _ _) => apply nv_map_err
  | |- never (unwrap_result _) => apply nv_unwrap_result
  | |- never (try_m _) => apply nv_try_m
  | |- never (lift _) => apply nv_lift
  | |- never (on_reader _ _) => apply nv_on_reader
  | |- never (with_reader _ _) => apply nv_with_reader
  | |- never (repeat_m _ _) => apply nv_repeat_m
  | |- never (map_m _ _) => apply nv_map_m; intro
  | |- never (iter_m _ _) => apply nv_iter_m; intro
  | |- never (let x := ?e in _) => cbv zeta
  | |- never (match ?x with _ => _ end) => destruct x
  | |- never (fun s => _) => let s := fresh "s" in intro s; cbv beta
  | |- never_res (Ok _ _) => discriminate
  | |- never_res (Err _ _) => discriminate
  | |- never_res (Ub _) => discriminate
  | |- never_res (Panic _) => discriminate
  | |- never_res (let x := ?e in _) => cbv zeta
  | |- never_res (match ?m ?s with Ok _ _ => _ | _ => _ end) =>
      let H := fresh "H" in assert (H : never_res (m s)); [|destruct (m s); [| | | |now elim H]; try clear H]
  | |- never_res (match ?x with _ => _ end) => destruct x
  | |- never_res (?m ?s) => let H := fresh "H" in assert (H : never m); [|exact (H s)]
  end.
Ltac nv_auto := solve [auto 3 with nv nocore].
Ltac nv := repeat first [nv_auto | nv_step].

(** ** BinaryReader *)

Lemma nv_goto (x : N) : never (goto x).
Proof. unfold goto. nv. Qed.
#[export] Hint Resolve nv_goto : nv.
Lemma nv_advance (p : profile) (x : N) : never (advance p x).
Proof. unfold advance. nv. Qed.
#[export] Hint Resolve nv_advance : nv.
Lemma nv_peek (p : profile) (n : N) : never (peek p n).
Proof. unfold peek. nv. Qed.
#[export] Hint Resolve nv_peek : nv.
Lemma nv_read (p : profile) (n : N) : never (read p n).
Proof. unfold read. nv. Qed.
#[export] Hint Resolve nv_read : nv.
Lemma nv_peek_array (p : profile) (sz : N) (cnt : N) : never (peek_array p sz cnt).
Proof. unfold peek_array. nv. Qed.
#[export] Hint Resolve nv_peek_array : nv.
Lemma nv_read_array (p : profile) (sz : N) (cnt : N) : never (read_array p sz cnt).
Proof. unfold read_array. nv. Qed.
#[export] Hint Resolve nv_read_array : nv.
Lemma nv_read_str (p : profile) (length : N) : never (read_str p length).
Proof. unfold read_str. nv. Qed.
#[export] Hint Resolve nv_read_str : nv.
Lemma nv_read_c_str (p : profile) : never (read_c_str p).
Proof. unfold read_c_str. nv. Qed.
#[export] Hint Resolve nv_read_c_str : nv.
Lemma nv_rd (p : profile) (n : N) (e : string) : never (rd p n e).
Proof. unfold rd. nv. Qed.
#[export] Hint Resolve nv_rd : nv.
Lemma nv_pk (p : profile) (n : N) (e : string) : never (pk p n e).
Proof. unfold pk. nv. Qed.
#[export] Hint Resolve nv_pk : nv.

(** ** Pe *)

Lemma nv_parse_pe_m (p : profile) : never (parse_pe_m p).
Proof. unfold parse_pe_m. nv. Qed.
#[export] Hint Resolve nv_parse_pe_m : nv.
Lemma nv_parse_pe (p : profile) (data : list byte) : never_res (parse_pe p data).
Proof. unfold parse_pe. nv. Qed.
#[export] Hint Resolve nv_parse_pe : nv.
Lemma nv_resolve_rva_ {S} (p : profile) (rva : N) (secs : list pe_section) : never (@resolve_rva_ S p rva secs).
Proof. induction secs as [|x l IH]; cbn [resolve_rva_]; nv. Qed.
#[export] Hint Resolve nv_resolve_rva_ : nv.
Lemma nv_resolve_rva {S} (p : profile) (pi : pe_info) (rva : N) : never (@resolve_rva S p pi rva).
Proof. unfold resolve_rva. nv. Qed.
#[export] Hint Resolve nv_resolve_rva : nv.
Lemma nv_section_name {S} (s : pe_section) : never (@section_name S s).
Proof. unfold section_name. nv. Qed.
#[export] Hint Resolve nv_section_name : nv.

(** ** Tables *)

Lemma nv_read_index (p : profile) (wide : bool) : never (read_index p wide).
Proof. unfold read_index. nv. Qed.
#[export] Hint Resolve nv_read_index : nv.
Lemma nv_read_type_def_handle (p : profile) (E : tenv) : never (read_type_def_handle p E).
Proof. unfold read_type_def_handle. nv. Qed.
#[export] Hint Resolve nv_read_type_def_handle : nv.
Lemma nv_read_field_handle (p : profile) (E : tenv) : never (read_field_handle p E).
Proof. unfold read_field_handle. nv. Qed.
#[export] Hint Resolve nv_read_field_handle : nv.
Lemma nv_read_method_def_handle (p : profile) (E : tenv) : never (read_method_def_handle p E).
Proof. unfold read_method_def_handle. nv. Qed.
#[export] Hint Resolve nv_read_method_def_handle : nv.
Lemma nv_read_param_handle (p : profile) (E : tenv) : never (read_param_handle p E).
Proof. unfold read_param_handle. nv. Qed.
#[export] Hint Resolve nv_read_param_handle : nv.
Lemma nv_read_event_handle (p : profile) (E : tenv) : never (read_event_handle p E).
Proof. unfold read_event_handle. nv. Qed.
#[export] Hint Resolve nv_read_event_handle : nv.
Lemma nv_read_property_handle (p : profile) (E : tenv) : never (read_property_handle p E).
Proof. unfold read_property_handle. nv. Qed.
#[export] Hint Resolve nv_read_property_handle : nv.
Lemma nv_read_module_ref_handle (p : profile) (E : tenv) : never (read_module_ref_handle p E).
Proof. unfold read_module_ref_handle. nv. Qed.
#[export] Hint Resolve nv_read_module_ref_handle : nv.
Lemma nv_read_assembly_ref_handle (p : profile) (E : tenv) : never (read_assembly_ref_handle p E).
Proof. unfold read_assembly_ref_handle. nv. Qed.
#[export] Hint Resolve nv_read_assembly_ref_handle : nv.
Lemma nv_read_generic_param_handle (p : profile) (E : tenv) : never (read_generic_param_handle p E).
Proof. unfold read_generic_param_handle. nv. Qed.
#[export] Hint Resolve nv_read_generic_param_handle : nv.
Lemma nv_read_string_handle (p : profile) (E : tenv) : never (read_string_handle p E).
Proof. unfold read_string_handle. nv. Qed.
#[export] Hint Resolve nv_read_string_handle : nv.
Lemma nv_read_guid_handle (p : profile) (E : tenv) : never (read_guid_handle p E).
Proof. unfold read_guid_handle. nv. Qed.
#[export] Hint Resolve nv_read_guid_handle : nv.
Lemma nv_read_blob_handle (p : profile) (E : tenv) : never (read_blob_handle p E).
Proof. unfold read_blob_handle. nv. Qed.
#[export] Hint Resolve nv_read_blob_handle : nv.
Lemma nv_read_coded (p : profile) (wide : bool) (mask : N) (tag_table : N -> option table) (e : string) : never (read_coded p wide mask tag_table e).
Proof. unfold read_coded. nv. Qed.
#[export] Hint Resolve nv_read_coded : nv.
Lemma nv_read_type_def_or_ref_handle (p : profile) (E : tenv) : never (read_type_def_or_ref_handle p E).
Proof. unfold read_type_def_or_ref_handle. nv. Qed.
#[export] Hint Resolve nv_read_type_def_or_ref_handle : nv.
Lemma nv_read_has_constant_handle (p : profile) (E : tenv) : never (read_has_constant_handle p E).
Proof. unfold read_has_constant_handle. nv. Qed.
#[export] Hint Resolve nv_read_has_constant_handle : nv.
Lemma nv_read_has_custom_attribute_handle (p : profile) (E : tenv) : never (read_has_custom_attribute_handle p E).
Proof. unfold read_has_custom_attribute_handle. nv. Qed.
#[export] Hint Resolve nv_read_has_custom_attribute_handle : nv.
Lemma nv_read_has_field_marshal_handle (p : profile) (E : tenv) : never (read_has_field_marshal_handle p E).
Proof. unfold read_has_field_marshal_handle. nv. Qed.
#[export] Hint Resolve nv_read_has_field_marshal_handle : nv.
Lemma nv_read_has_decl_security_handle (p : profile) (E : tenv) : never (read_has_decl_security_handle p E).
Proof. unfold read_has_decl_security_handle. nv. Qed.
#[export] Hint Resolve nv_read_has_decl_security_handle : nv.
Lemma nv_read_member_ref_parent_handle (p : profile) (E : tenv) : never (read_member_ref_parent_handle p E).
Proof. unfold read_member_ref_parent_handle. nv. Qed.
#[export] Hint Resolve nv_read_member_ref_parent_handle : nv.
Lemma nv_read_has_semantics_handle (p : profile) (E : tenv) : never (read_has_semantics_handle p E).
Proof. unfold read_has_semantics_handle. nv. Qed.
#[export] Hint Resolve nv_read_has_semantics_handle : nv.
Lemma nv_read_method_def_or_ref_handle (p : profile) (E : tenv) : never (read_method_def_or_ref_handle p E).
Proof. unfold read_method_def_or_ref_handle. nv. Qed.
#[export] Hint Resolve nv_read_method_def_or_ref_handle : nv.
Lemma nv_read_member_forwarded_handle (p : profile) (E : tenv) : never (read_member_forwarded_handle p E).
Proof. unfold read_member_forwarded_handle. nv. Qed.
#[export] Hint Resolve nv_read_member_forwarded_handle : nv.
Lemma nv_read_implementation_handle (p : profile) (E : tenv) : never (read_implementation_handle p E).
Proof. unfold read_implementation_handle. nv. Qed.
#[export] Hint Resolve nv_read_implementation_handle : nv.
Lemma nv_read_custom_attribute_type_handle (p : profile) (E : tenv) : never (read_custom_attribute_type_handle p E).
Proof. unfold read_custom_attribute_type_handle. nv. Qed.
#[export] Hint Resolve nv_read_custom_attribute_type_handle : nv.
Lemma nv_read_resolution_scope_handle (p : profile) (E : tenv) : never (read_resolution_scope_handle p E).
Proof. unfold read_resolution_scope_handle. nv. Qed.
#[export] Hint Resolve nv_read_resolution_scope_handle : nv.
Lemma nv_read_type_or_method_def_handle (p : profile) (E : tenv) : never (read_type_or_method_def_handle p E).
Proof. unfold read_type_or_method_def_handle. nv. Qed.
#[export] Hint Resolve nv_read_type_or_method_def_handle : nv.
Lemma nv_attr {A} (o : option A) : never (@attr A o).
Proof. unfold attr. nv. Qed.
#[export] Hint Resolve nv_attr : nv.
Lemma nv_read_module (p : profile) (E : tenv) : never (read_module p E).
Proof. unfold read_module. nv. Qed.
#[export] Hint Resolve nv_read_module : nv.
Lemma nv_read_type_ref (p : profile) (E : tenv) : never (read_type_ref p E).
Proof. unfold read_type_ref. nv. Qed.
#[export] Hint Resolve nv_read_type_ref : nv.
Lemma nv_read_type_def (p : profile) (E : tenv) : never (read_type_def p E).
Proof. unfold read_type_def. nv. Qed.
#[export] Hint Resolve nv_read_type_def : nv.
Lemma nv_read_field (p : profile) (E : tenv) : never (read_field p E).
Proof. unfold read_field. nv. Qed.
#[export] Hint Resolve nv_read_field : nv.
Lemma nv_read_method_def (p : profile) (E : tenv) : never (read_method_def p E).
Proof. unfold read_method_def. nv. Qed.
#[export] Hint Resolve nv_read_method_def : nv.
Lemma nv_read_param (p : profile) (E : tenv) : never (read_param p E).
Proof. unfold read_param. nv. Qed.
#[export] Hint Resolve nv_read_param : nv.
Lemma nv_read_interface_impl (p : profile) (E : tenv) : never (read_interface_impl p E).
Proof. unfold read_interface_impl. nv. Qed.
#[export] Hint Resolve nv_read_interface_impl : nv.
Lemma nv_read_member_ref (p : profile) (E : tenv) : never (read_member_ref p E).
Proof. unfold read_member_ref. nv. Qed.
#[export] Hint Resolve nv_read_member_ref : nv.
Lemma nv_read_constant (p : profile) (E : tenv) : never (read_constant p E).
Proof. unfold read_constant. nv. Qed.
#[export] Hint Resolve nv_read_constant : nv.
Lemma nv_read_custom_attribute (p : profile) (E : tenv) : never (read_custom_attribute p E).
Proof. unfold read_custom_attribute. nv. Qed.
#[export] Hint Resolve nv_read_custom_attribute : nv.
Lemma nv_read_field_marshal (p : profile) (E : tenv) : never (read_field_marshal p E).
Proof. unfold read_field_marshal. nv. Qed.
#[export] Hint Resolve nv_read_field_marshal : nv.
Lemma nv_read_decl_security (p : profile) (E : tenv) : never (read_decl_security p E).
Proof. unfold read_decl_security. nv. Qed.
#[export] Hint Resolve nv_read_decl_security : nv.
Lemma nv_read_class_layout (p : profile) (E : tenv) : never (read_class_layout p E).
Proof. unfold read_class_layout. nv. Qed.
#[export] Hint Resolve nv_read_class_layout : nv.
Lemma nv_read_field_layout (p : profile) (E : tenv) : never (read_field_layout p E).
Proof. unfold read_field_layout. nv. Qed.
#[export] Hint Resolve nv_read_field_layout : nv.
Lemma nv_read_standalone_sig (p : profile) (E : tenv) : never (read_standalone_sig p E).
Proof. unfold read_standalone_sig. nv. Qed.
#[export] Hint Resolve nv_read_standalone_sig : nv.
Lemma nv_read_event_map (p : profile) (E : tenv) : never (read_event_map p E).
Proof. unfold read_event_map. nv. Qed.
#[export] Hint Resolve nv_read_event_map : nv.
Lemma nv_read_event (p : profile) (E : tenv) : never (read_event p E).
Proof. unfold read_event. nv. Qed.
#[export] Hint Resolve nv_read_event : nv.
Lemma nv_read_property_map (p : profile) (E : tenv) : never (read_property_map p E).
Proof. unfold read_property_map. nv. Qed.
#[export] Hint Resolve nv_read_property_map : nv.
Lemma nv_read_property (p : profile) (E : tenv) : never (read_property p E).
Proof. unfold read_property. nv. Qed.
#[export] Hint Resolve nv_read_property : nv.
Lemma nv_read_method_semantics (p : profile) (E : tenv) : never (read_method_semantics p E).
Proof. unfold read_method_semantics. nv. Qed.
#[export] Hint Resolve nv_read_method_semantics : nv.
Lemma nv_read_method_impl (p : profile) (E : tenv) : never (read_method_impl p E).
Proof. unfold read_method_impl. nv. Qed.
#[export] Hint Resolve nv_read_method_impl : nv.
Lemma nv_read_module_ref (p : profile) (E : tenv) : never (read_module_ref p E).
Proof. unfold read_module_ref. nv. Qed.
#[export] Hint Resolve nv_read_module_ref : nv.
Lemma nv_read_type_spec (p : profile) (E : tenv) : never (read_type_spec p E).
Proof. unfold read_type_spec. nv. Qed.
#[export] Hint Resolve nv_read_type_spec : nv.
Lemma nv_read_impl_map (p : profile) (E : tenv) : never (read_impl_map p E).
Proof. unfold read_impl_map. nv. Qed.
#[export] Hint Resolve nv_read_impl_map : nv.
Lemma nv_read_field_rva (p : profile) (E : tenv) : never (read_field_rva p E).
Proof. unfold read_field_rva. nv. Qed.
#[export] Hint Resolve nv_read_field_rva : nv.
Lemma nv_read_assembly (p : profile) (E : tenv) : never (read_assembly p E).
Proof. unfold read_assembly. nv. Qed.
#[export] Hint Resolve nv_read_assembly : nv.
Lemma nv_read_assembly_processor (p : profile) (E : tenv) : never (read_assembly_processor p E).
Proof. unfold read_assembly_processor. nv. Qed.
#[export] Hint Resolve nv_read_assembly_processor : nv.
Lemma nv_read_assembly_os (p : profile) (E : tenv) : never (read_assembly_os p E).
Proof. unfold read_assembly_os. nv. Qed.
#[export] Hint Resolve nv_read_assembly_os : nv.
Lemma nv_read_assembly_ref (p : profile) (E : tenv) : never (read_assembly_ref p E).
Proof. unfold read_assembly_ref. nv. Qed.
#[export] Hint Resolve nv_read_assembly_ref : nv.
Lemma nv_read_assembly_ref_processor (p : profile) (E : tenv) : never (read_assembly_ref_processor p E).
Proof. unfold read_assembly_ref_processor. nv. Qed.
#[export] Hint Resolve nv_read_assembly_ref_processor : nv.
Lemma nv_read_assembly_ref_os (p : profile) (E : tenv) : never (read_assembly_ref_os p E).
Proof. unfold read_assembly_ref_os. nv. Qed.
#[export] Hint Resolve nv_read_assembly_ref_os : nv.
Lemma nv_read_file (p : profile) (E : tenv) : never (read_file p E).
Proof. unfold read_file. nv. Qed.
#[export] Hint Resolve nv_read_file : nv.
Lemma nv_read_exported_type (p : profile) (E : tenv) : never (read_exported_type p E).
Proof. unfold read_exported_type. nv. Qed.
#[export] Hint Resolve nv_read_exported_type : nv.
Lemma nv_read_manifest_resource (p : profile) (E : tenv) : never (read_manifest_resource p E).
Proof. unfold read_manifest_resource. nv. Qed.
#[export] Hint Resolve nv_read_manifest_resource : nv.
Lemma nv_read_nested_class (p : profile) (E : tenv) : never (read_nested_class p E).
Proof. unfold read_nested_class. nv. Qed.
#[export] Hint Resolve nv_read_nested_class : nv.
Lemma nv_read_generic_param (p : profile) (E : tenv) : never (read_generic_param p E).
Proof. unfold read_generic_param. nv. Qed.
#[export] Hint Resolve nv_read_generic_param : nv.
Lemma nv_read_method_spec (p : profile) (E : tenv) : never (read_method_spec p E).
Proof. unfold read_method_spec. nv. Qed.
#[export] Hint Resolve nv_read_method_spec : nv.
Lemma nv_read_generic_param_constraint (p : profile) (E : tenv) : never (read_generic_param_constraint p E).
Proof. unfold read_generic_param_constraint. nv. Qed.
#[export] Hint Resolve nv_read_generic_param_constraint : nv.
Lemma nv_read_table {A} (E : tenv) (t : table) (row : M reader A) : never row -> never (@read_table A E t row).
Proof. intro. unfold read_table. nv. Qed.
#[export] Hint Resolve nv_read_table : nv.
Lemma nv_read_tables (p : profile) (E : tenv) : never (read_tables p E).
Proof. unfold read_tables. nv. Qed.
#[export] Hint Resolve nv_read_tables : nv.
Lemma nv_read_table_stream (p : profile) : never (read_table_stream p).
Proof. unfold read_table_stream. nv. Qed.
#[export] Hint Resolve nv_read_table_stream : nv.
Lemma nv_table_index {A} (p : profile) (rows : list A) (h : N) : never_res (@table_index A p rows h).
Proof. unfold table_index. nv. Qed.
#[export] Hint Resolve nv_table_index : nv.

(** ** Blob *)

Lemma nv_strings_get (index : N) : never (strings_get index).
Proof. unfold strings_get. nv. Qed.
#[export] Hint Resolve nv_strings_get : nv.
Lemma nv_rd_be (p : profile) (n : N) (e : string) : never (rd_be p n e).
Proof. unfold rd_be. nv. Qed.
#[export] Hint Resolve nv_rd_be : nv.
Lemma nv_read_compressed_u32 (p : profile) : never (read_compressed_u32 p).
Proof. unfold read_compressed_u32. nv. Qed.
#[export] Hint Resolve nv_read_compressed_u32 : nv.
Lemma nv_read_utf16_str (p : profile) : never (read_utf16_str p).
Proof. unfold read_utf16_str. nv. Qed.
#[export] Hint Resolve nv_read_utf16_str : nv.
Lemma nv_blob_reader_new (p : profile) (data : list byte) : never_res (blob_reader_new p data).
Proof. unfold blob_reader_new. nv. Qed.
#[export] Hint Resolve nv_blob_reader_new : nv.
Lemma nv_blob_heap_reader (p : profile) (heap : list byte) (h : N) : never_res (blob_heap_reader p heap h).
Proof. unfold blob_heap_reader. nv. Qed.
#[export] Hint Resolve nv_blob_heap_reader : nv.
Lemma nv_read_array_shape (p : profile) : never (read_array_shape p).
Proof. unfold read_array_shape. nv. Qed.
#[export] Hint Resolve nv_read_array_shape : nv.
Lemma nv_read_type_def_or_ref (p : profile) : never (read_type_def_or_ref p).
Proof. unfold read_type_def_or_ref. nv. Qed.
#[export] Hint Resolve nv_read_type_def_or_ref : nv.
Lemma nv_read_marshal_scalar (p : profile) : never (read_marshal_scalar p).
Proof. unfold read_marshal_scalar. nv. Qed.
#[export] Hint Resolve nv_read_marshal_scalar : nv.
Lemma nv_read_marshal_descriptor (p : profile) : never (read_marshal_descriptor p).
Proof. unfold read_marshal_descriptor. nv. Qed.
#[export] Hint Resolve nv_read_marshal_descriptor : nv.

(** ** Metadata *)

Lemma nv_slice_from (d : list byte) (a : N) : never (slice_from d a).
Proof. unfold slice_from. nv. Qed.
#[export] Hint Resolve nv_slice_from : nv.
Lemma nv_slice_range (d : list byte) (a : N) (b : N) : never (slice_range d a b).
Proof. unfold slice_range. nv. Qed.
#[export] Hint Resolve nv_slice_range : nv.
Lemma nv_set_stream (name : list byte) (h : stream_header) (s : stream_headers) : never (set_stream name h s).
Proof. unfold set_stream. nv. Qed.
#[export] Hint Resolve nv_set_stream : nv.
Lemma nv_read_stream_headers (p : profile) (n : nat) (s : stream_headers) : never (read_stream_headers p n s).
Proof. revert s. induction n as [|n IH]; intro s; cbn [read_stream_headers]; nv. Qed.
#[export] Hint Resolve nv_read_stream_headers : nv.
Lemma nv_read_root (p : profile) : never (read_root p).
Proof. unfold read_root. nv. Qed.
#[export] Hint Resolve nv_read_root : nv.
Lemma nv_stream_slice (p : profile) (md : list byte) (h : stream_header) : never (stream_slice p md h).
Proof. unfold stream_slice. nv. Qed.
#[export] Hint Resolve nv_stream_slice : nv.
Lemma nv_unwrap {S} {A} (o : option A) : never (@unwrap S A o).
Proof. unfold unwrap. nv. Qed.
#[export] Hint Resolve nv_unwrap : nv.
Lemma nv_read_metadata (p : profile) (data : list byte) : never (read_metadata p data).
Proof. unfold read_metadata. nv. Qed.
#[export] Hint Resolve nv_read_metadata : nv.
Lemma nv_get_pe_data (p : profile) (m : metadata) (rs : rva_and_size) : never (get_pe_data p m rs).
Proof. unfold get_pe_data. nv. Qed.
#[export] Hint Resolve nv_get_pe_data : nv.
Lemma nv_get_resource_data (p : profile) (m : metadata) (offset : N) : never (get_resource_data p m offset).
Proof. unfold get_resource_data. nv. Qed.
#[export] Hint Resolve nv_get_resource_data : nv.


(** A release build never panics because of an arithmetic overflow. *)
From Coq Require Import NArith ZArith Lia String List Bool.
From Coq.Strings Require Import Byte.
From Verif Require Import Base Utf BinaryReader Pe Attributes Tables Blob Metadata Runtime Loader Value Gc Opcodes Interp Host SpecProfiles.
Import ListNotations.
Open Scope N_scope.

Definition quiet_res {S A} (r : res S A) : Prop := forall w, r = Panic w -> ~ In w overflow_panics.
Definition quiet {S A} (m : M S A) : Prop := forall s, quiet_res (m s).

Lemma qt_bind {S A B} (m : M S A) (k : A -> M S B) : quiet m -> (forall a, quiet (k a)) -> quiet (bind m k).
Proof.
  intros Hm Hk s w. unfold bind. specialize (Hm s). destruct (m s); intro E; try discriminate E.
  - exact (Hk _ _ _ E).
  - injection E as ->. now apply Hm.
Qed.
Lemma u_add_quiet b x y : exists z, u_add Release b x y = Some z.
Proof. unfold u_add. destruct (_ <? _); eauto. Qed.
Lemma u_mul_quiet b x y : exists z, u_mul Release b x y = Some z.
Proof. unfold u_mul. destruct (_ <? _); eauto. Qed.
Lemma u_sub_quiet b x y : exists z, u_sub Release b x y = Some z.
Proof. unfold u_sub. destruct (_ <=? _); eauto. Qed.
Lemma qt_ovf {S A} (o : option A) : (exists z, o = Some z) -> quiet (S := S) (ovf o).
Proof. intros [z ->] s w E. discriminate E. Qed.

Ltac qt_same m s H := let E := fresh "E" in specialize (H s); destruct (m s); intro E; try discriminate E; injection E as ->; now apply H.
Lemma qt_map_err {S A} (m : M S A) e : quiet m -> quiet (map_err m e).
Proof. intros H s w. unfold map_err. qt_same m s H. Qed.
Lemma qt_unwrap_result {S A} (m : M S A) : quiet m -> quiet (unwrap_result m).
Proof.
  intros H s w. unfold unwrap_result. specialize (H s). destruct (m s); intro E; try discriminate E; injection E as <-.
  - cbn. intuition discriminate.
  - now apply H.
Qed.
Lemma qt_try_m {S A} (m : M S A) : quiet m -> quiet (try_m m).
Proof. intros H s w. unfold try_m. qt_same m s H. Qed.
Lemma qt_lift {S A} (m : M unit A) : quiet m -> quiet (S := S) (lift m).
Proof. intros H s w. unfold lift. qt_same m tt H. Qed.
Lemma qt_on_reader {A} r (m : M reader A) : quiet m -> quiet (on_reader r m).
Proof. intros H s w. unfold on_reader. qt_same m r H. Qed.
Lemma qt_with_reader {S A} r (m : M reader A) : quiet m -> quiet (S := S) (with_reader r m).
Proof. intros H s w. unfold with_reader. qt_same m r H. Qed.
Lemma qt_ret {S A} (a : A) : quiet (S := S) (ret a).
Proof. intros s w E. discriminate E. Qed.
Lemma qt_repeat_m {S A} (m : M S A) n : quiet m -> quiet (repeat_m n m).
Proof. intro H. induction n as [|n IH]; cbn [repeat_m]; [apply qt_ret|]. repeat (apply qt_bind; [assumption|intro]). apply qt_ret. Qed.
Lemma qt_map_m {S A B} (f : A -> M S B) l : (forall x, quiet (f x)) -> quiet (map_m f l).
Proof. intro H. induction l as [|x l IH]; cbn [map_m]; [apply qt_ret|]. apply qt_bind; [apply H|intro]. apply qt_bind; [exact IH|intro]. apply qt_ret. Qed.
Lemma qt_iter_m {S A} (f : A -> M S unit) l : (forall x, quiet (f x)) -> quiet (iter_m f l).
Proof. intro H. induction l as [|x l IH]; cbn [iter_m]; [apply qt_ret|]. apply qt_bind; [apply H|intro; exact IH]. Qed.
Lemma qt_range_m {S} (f : N -> M S unit) : (forall x, quiet (f x)) -> forall n i, quiet (range_m n i f).
Proof. intro H. induction n as [|n IH]; intro i; cbn [range_m]; [apply qt_ret|]. apply qt_bind; [apply H|intro; apply IH]. Qed.
Lemma qt_fold_m {S A B} (f : A -> B -> M S A) : (forall a x, quiet (f a x)) -> forall l a, quiet (fold_m f a l).
Proof. intro H. induction l as [|x l IH]; intro a; cbn [fold_m]; [apply qt_ret|]. apply qt_bind; [apply H|intro; apply IH]. Qed.

Create HintDb qt discriminated.

Ltac qt_end := let w := fresh "w" in let E := fresh "E" in intros w E; first [discriminate E | injection E as <-; cbn; intuition discriminate].
Ltac qt_step :=
  lazymatch goal with
  | |- quiet (bind _ _) => apply qt_bind; [|intro]
  | |- quiet (ovf (u_add _ _ _ _)) => apply qt_ovf, u_add_quiet
  | |- quiet (ovf (u_mul _ _ _ _)) => apply qt_ovf, u_mul_quiet
  | |- quiet (ovf (u_sub _ _ _ _)) => apply qt_ovf, u_sub_quiet
  | |- quiet (ret _) => apply qt_ret
  | |- quiet (fail _) => intro; qt_end
  | |- quiet (panic _) => intro; qt_end
  | |- quiet (ub _) => intro; qt_end
  | |- quiet nofuel => intro; qt_end
  | |- quiet get_state => intro; qt_end
  | |- quiet (put_state _) => intro; qt_end
  | |- quiet (ok_or ?o _) => unfold ok_or; destruct o
  | |- quiet (map_err _ _) => apply qt_map_err
  | |- quiet (unwrap_result _) => apply qt_unwrap_result
  | |- quiet (try_m _) => apply qt_try_m
  | |- quiet (lift _) => apply qt_lift
  | |- quiet (on_reader _ _) => apply qt_on_reader
  | |- quiet (with_reader _ _) => apply qt_with_reader
  | |- quiet (repeat_m _ _) => apply qt_repeat_m
  | |- quiet (map_m _ _) => apply qt_map_m; intro
  | |- quiet (iter_m _ _) => apply qt_iter_m; intro
  | |- quiet (range_m _ _ _) => apply qt_range_m; intro
  | |- quiet (fold_m _ _ _) => apply qt_fold_m; intros
  | |- quiet (let x := ?e in _) => cbv zeta
  | |- quiet (match u_add Release ?b ?x ?y with _ => _ end) => let E := fresh "E" in destruct (u_add_quiet b x y) as [? E]; rewrite E; clear E
  | |- quiet (match u_mul Release ?b ?x ?y with _ => _ end) => let E := fresh "E" in destruct (u_mul_quiet b x y) as [? E]; rewrite E; clear E
  | |- quiet (match u_sub Release ?b ?x ?y with _ => _ end) => let E := fresh "E" in destruct (u_sub_quiet b x y) as [? E]; rewrite E; clear E
  | |- quiet (match ?x with _ => _ end) => destruct x
  | |- quiet (fun s => _) => let s := fresh "s" in intro s; cbv beta
  | |- quiet_res (Ok _ _) => qt_end
  | |- quiet_res (Err _ _) => qt_end
  | |- quiet_res (Ub _) => qt_end
  | |- quiet_res NoFuel => qt_end
  | |- quiet_res (Panic _) => qt_end
  | |- quiet_res (let x := ?e in _) => cbv zeta
  | |- quiet_res (match u_add Release ?b ?x ?y with _ => _ end) => let E := fresh "E" in destruct (u_add_quiet b x y) as [? E]; rewrite E; clear E
  | |- quiet_res (match u_mul Release ?b ?x ?y with _ => _ end) => let E := fresh "E" in destruct (u_mul_quiet b x y) as [? E]; rewrite E; clear E
  | |- quiet_res (match u_sub Release ?b ?x ?y with _ => _ end) => let E := fresh "E" in destruct (u_sub_quiet b x y) as [? E]; rewrite E; clear E
  | |- quiet_res (match ?m ?s with Ok _ _ => _ | _ => _ end) =>
      let H := fresh "H" in assert (H : quiet_res (m s)); [|destruct (m s); [| |specialize (H _ eq_refl); intros ? [= <-]; exact H| |]; try clear H]
  | |- quiet_res (match ?x with _ => _ end) => destruct x
  | |- quiet_res (?m ?s) => let H := fresh "H" in assert (H : quiet m); [|exact (H s)]
  | H : forall fr, quiet (?r fr) |- quiet (?r _) => apply H
  end.
Ltac qt_auto := solve [auto 3 with qt nocore].
Ltac qt := repeat first [qt_auto | qt_step].

(** ** BinaryReader *)

Lemma qt_goto (x : N) : quiet (goto x).
Proof. unfold goto. qt. Qed.
#[export] Hint Resolve qt_goto : qt.
Lemma qt_advance (x : N) : quiet (advance Release x).
Proof. unfold advance. qt. Qed.
#[export] Hint Resolve qt_advance : qt.
Lemma qt_peek (n : N) : quiet (peek Release n).
Proof. unfold peek. qt. Qed.
#[export] Hint Resolve qt_peek : qt.
Lemma qt_read (n : N) : quiet (read Release n).
Proof. unfold read. qt. Qed.
#[export] Hint Resolve qt_read : qt.
Lemma qt_peek_array (sz : N) (cnt : N) : quiet (peek_array Release sz cnt).
Proof. unfold peek_array. qt. Qed.
#[export] Hint Resolve qt_peek_array : qt.
Lemma qt_read_array (sz : N) (cnt : N) : quiet (read_array Release sz cnt).
Proof. unfold read_array. qt. Qed.
#[export] Hint Resolve qt_read_array : qt.
Lemma qt_read_str (length : N) : quiet (read_str Release length).
Proof. unfold read_str. qt. Qed.
#[export] Hint Resolve qt_read_str : qt.
Lemma qt_read_c_str  : quiet (read_c_str Release).
Proof. unfold read_c_str. qt. Qed.
#[export] Hint Resolve qt_read_c_str : qt.
Lemma qt_rd (n : N) (e : string) : quiet (rd Release n e).
Proof. unfold rd. qt. Qed.
#[export] Hint Resolve qt_rd : qt.
Lemma qt_pk (n : N) (e : string) : quiet (pk Release n e).
Proof. unfold pk. qt. Qed.
#[export] Hint Resolve qt_pk : qt.

(** ** Pe *)

Lemma qt_parse_pe_m  : quiet (parse_pe_m Release).
Proof. unfold parse_pe_m. qt. Qed.
#[export] Hint Resolve qt_parse_pe_m : qt.
Lemma qt_parse_pe (data : list byte) : quiet_res (parse_pe Release data).
Proof. unfold parse_pe. qt. Qed.
#[export] Hint Resolve qt_parse_pe : qt.
Lemma qt_resolve_rva_ {S} (rva : N) (secs : list pe_section) : quiet (@resolve_rva_ S Release rva secs).
Proof. induction secs as [|x l IH]; cbn [resolve_rva_]; qt. Qed.
#[export] Hint Resolve qt_resolve_rva_ : qt.
Lemma qt_resolve_rva {S} (pi : pe_info) (rva : N) : quiet (@resolve_rva S Release pi rva).
Proof. unfold resolve_rva. qt. Qed.
#[export] Hint Resolve qt_resolve_rva : qt.
Lemma qt_section_name {S} (s : pe_section) : quiet (@section_name S s).
Proof. unfold section_name. qt. Qed.
#[export] Hint Resolve qt_section_name : qt.

(** ** Tables *)

Lemma qt_read_index (wide : bool) : quiet (read_index Release wide).
Proof. unfold read_index. qt. Qed.
#[export] Hint Resolve qt_read_index : qt.
Lemma qt_read_type_def_handle (E : tenv) : quiet (read_type_def_handle Release E).
Proof. unfold read_type_def_handle. qt. Qed.
#[export] Hint Resolve qt_read_type_def_handle : qt.
Lemma qt_read_field_handle (E : tenv) : quiet (read_field_handle Release E).
Proof. unfold read_field_handle. qt. Qed.
#[export] Hint Resolve qt_read_field_handle : qt.
Lemma qt_read_method_def_handle (E : tenv) : quiet (read_method_def_handle Release E).
Proof. unfold read_method_def_handle. qt. Qed.
#[export] Hint Resolve qt_read_method_def_handle : qt.
Lemma qt_read_param_handle (E : tenv) : quiet (read_param_handle Release E).
Proof. unfold read_param_handle. qt. Qed.
#[export] Hint Resolve qt_read_param_handle : qt.
Lemma qt_read_event_handle (E : tenv) : quiet (read_event_handle Release E).
Proof. unfold read_event_handle. qt. Qed.
#[export] Hint Resolve qt_read_event_handle : qt.
Lemma qt_read_property_handle (E : tenv) : quiet (read_property_handle Release E).
Proof. unfold read_property_handle. qt. Qed.
#[export] Hint Resolve qt_read_property_handle : qt.
Lemma qt_read_module_ref_handle (E : tenv) : quiet (read_module_ref_handle Release E).
Proof. unfold read_module_ref_handle. qt. Qed.
#[export] Hint Resolve qt_read_module_ref_handle : qt.
Lemma qt_read_assembly_ref_handle (E : tenv) : quiet (read_assembly_ref_handle Release E).
Proof. unfold read_assembly_ref_handle. qt. Qed.
#[export] Hint Resolve qt_read_assembly_ref_handle : qt.
Lemma qt_read_generic_param_handle (E : tenv) : quiet (read_generic_param_handle Release E).
Proof. unfold read_generic_param_handle. qt. Qed.
#[export] Hint Resolve qt_read_generic_param_handle : qt.
Lemma qt_read_string_handle (E : tenv) : quiet (read_string_handle Release E).
Proof. unfold read_string_handle. qt. Qed.
#[export] Hint Resolve qt_read_string_handle : qt.
Lemma qt_read_guid_handle (E : tenv) : quiet (read_guid_handle Release E).
Proof. unfold read_guid_handle. qt. Qed.
#[export] Hint Resolve qt_read_guid_handle : qt.
Lemma qt_read_blob_handle (E : tenv) : quiet (read_blob_handle Release E).
Proof. unfold read_blob_handle. qt. Qed.
#[export] Hint Resolve qt_read_blob_handle : qt.
Lemma qt_read_coded (wide : bool) (mask : N) (tag_table : N -> option table) (e : string) : quiet (read_coded Release wide mask tag_table e).
Proof. unfold read_coded. qt. Qed.
#[export] Hint Resolve qt_read_coded : qt.
Lemma qt_read_type_def_or_ref_handle (E : tenv) : quiet (read_type_def_or_ref_handle Release E).
Proof. unfold read_type_def_or_ref_handle. qt. Qed.
#[export] Hint Resolve qt_read_type_def_or_ref_handle : qt.
Lemma qt_read_has_constant_handle (E : tenv) : quiet (read_has_constant_handle Release E).
Proof. unfold read_has_constant_handle. qt. Qed.
#[export] Hint Resolve qt_read_has_constant_handle : qt.
Lemma qt_read_has_custom_attribute_handle (E : tenv) : quiet (read_has_custom_attribute_handle Release E).
Proof. unfold read_has_custom_attribute_handle. qt. Qed.
#[export] Hint Resolve qt_read_has_custom_attribute_handle : qt.
Lemma qt_read_has_field_marshal_handle (E : tenv) : quiet (read_has_field_marshal_handle Release E).
Proof. unfold read_has_field_marshal_handle. qt. Qed.
#[export] Hint Resolve qt_read_has_field_marshal_handle : qt.
Lemma qt_read_has_decl_security_handle (E : tenv) : quiet (read_has_decl_security_handle Release E).
Proof. unfold read_has_decl_security_handle. qt. Qed.
#[export] Hint Resolve qt_read_has_decl_security_handle : qt.
Lemma qt_read_member_ref_parent_handle (E : tenv) : quiet (read_member_ref_parent_handle Release E).
Proof. unfold read_member_ref_parent_handle. qt. Qed.
#[export] Hint Resolve qt_read_member_ref_parent_handle : qt.
Lemma qt_read_has_semantics_handle (E : tenv) : quiet (read_has_semantics_handle Release E).
Proof. unfold read_has_semantics_handle. qt. Qed.
#[export] Hint Resolve qt_read_has_semantics_handle : qt.
Lemma qt_read_method_def_or_ref_handle (E : tenv) : quiet (read_method_def_or_ref_handle Release E).
Proof. unfold read_method_def_or_ref_handle. qt. Qed.
#[export] Hint Resolve qt_read_method_def_or_ref_handle : qt.
Lemma qt_read_member_forwarded_handle (E : tenv) : quiet (read_member_forwarded_handle Release E).
Proof. unfold read_member_forwarded_handle. qt. Qed.
#[export] Hint Resolve qt_read_member_forwarded_handle : qt.
Lemma qt_read_implementation_handle (E : tenv) : quiet (read_implementation_handle Release E).
Proof. unfold read_implementation_handle. qt. Qed.
#[export] Hint Resolve qt_read_implementation_handle : qt.
Lemma qt_read_custom_attribute_type_handle (E : tenv) : quiet (read_custom_attribute_type_handle Release E).
Proof. unfold read_custom_attribute_type_handle. qt. Qed.
#[export] Hint Resolve qt_read_custom_attribute_type_handle : qt.
Lemma qt_read_resolution_scope_handle (E : tenv) : quiet (read_resolution_scope_handle Release E).
Proof. unfold read_resolution_scope_handle. qt. Qed.
#[export] Hint Resolve qt_read_resolution_scope_handle : qt.
Lemma qt_read_type_or_method_def_handle (E : tenv) : quiet (read_type_or_method_def_handle Release E).
Proof. unfold read_type_or_method_def_handle. qt. Qed.
#[export] Hint Resolve qt_read_type_or_method_def_handle : qt.
Lemma qt_attr {A} (o : option A) : quiet (@attr A o).
Proof. unfold attr. qt. Qed.
#[export] Hint Resolve qt_attr : qt.
Lemma qt_read_module (E : tenv) : quiet (read_module Release E).
Proof. unfold read_module. qt. Qed.
#[export] Hint Resolve qt_read_module : qt.
Lemma qt_read_type_ref (E : tenv) : quiet (read_type_ref Release E).
Proof. unfold read_type_ref. qt. Qed.
#[export] Hint Resolve qt_read_type_ref : qt.
Lemma qt_read_type_def (E : tenv) : quiet (read_type_def Release E).
Proof. unfold read_type_def. qt. Qed.
#[export] Hint Resolve qt_read_type_def : qt.
Lemma qt_read_field (E : tenv) : quiet (read_field Release E).
Proof. unfold read_field. qt. Qed.
#[export] Hint Resolve qt_read_field : qt.
Lemma qt_read_method_def (E : tenv) : quiet (read_method_def Release E).
Proof. unfold read_method_def. qt. Qed.
#[export] Hint Resolve qt_read_method_def : qt.
Lemma qt_read_param (E : tenv) : quiet (read_param Release E).
Proof. unfold read_param. qt. Qed.
#[export] Hint Resolve qt_read_param : qt.
Lemma qt_read_interface_impl (E : tenv) : quiet (read_interface_impl Release E).
Proof. unfold read_interface_impl. qt. Qed.
#[export] Hint Resolve qt_read_interface_impl : qt.
Lemma qt_read_member_ref (E : tenv) : quiet (read_member_ref Release E).
Proof. unfold read_member_ref. qt. Qed.
#[export] Hint Resolve qt_read_member_ref : qt.
Lemma qt_read_constant (E : tenv) : quiet (read_constant Release E).
Proof. unfold read_constant. qt. Qed.
#[export] Hint Resolve qt_read_constant : qt.
Lemma qt_read_custom_attribute (E : tenv) : quiet (read_custom_attribute Release E).
Proof. unfold read_custom_attribute. qt. Qed.
#[export] Hint Resolve qt_read_custom_attribute : qt.
Lemma qt_read_field_marshal (E : tenv) : quiet (read_field_marshal Release E).
Proof. unfold read_field_marshal. qt. Qed.
#[export] Hint Resolve qt_read_field_marshal : qt.
Lemma qt_read_decl_security (E : tenv) : quiet (read_decl_security Release E).
Proof. unfold read_decl_security. qt. Qed.
#[export] Hint Resolve qt_read_decl_security : qt.
Lemma qt_read_class_layout (E : tenv) : quiet (read_class_layout Release E).
Proof. unfold read_class_layout. qt. Qed.
#[export] Hint Resolve qt_read_class_layout : qt.
Lemma qt_read_field_layout (E : tenv) : quiet (read_field_layout Release E).
Proof. unfold read_field_layout. qt. Qed.
#[export] Hint Resolve qt_read_field_layout : qt.
Lemma qt_read_standalone_sig (E : tenv) : quiet (read_standalone_sig Release E).
Proof. unfold read_standalone_sig. qt. Qed.
#[export] Hint Resolve qt_read_standalone_sig : qt.
Lemma qt_read_event_map (E : tenv) : quiet (read_event_map Release E).
Proof. unfold read_event_map. qt. Qed.
#[export] Hint Resolve qt_read_event_map : qt.
Lemma qt_read_event (E : tenv) : quiet (read_event Release E).
Proof. unfold read_event. qt. Qed.
#[export] Hint Resolve qt_read_event : qt.
Lemma qt_read_property_map (E : tenv) : quiet (read_property_map Release E).
Proof. unfold read_property_map. qt. Qed.
#[export] Hint Resolve qt_read_property_map : qt.
Lemma qt_read_property (E : tenv) : quiet (read_property Release E).
Proof. unfold read_property. qt. Qed.
#[export] Hint Resolve qt_read_property : qt.
Lemma qt_read_method_semantics (E : tenv) : quiet (read_method_semantics Release E).
Proof. unfold read_method_semantics. qt. Qed.
#[export] Hint Resolve qt_read_method_semantics : qt.
Lemma qt_read_method_impl (E : tenv) : quiet (read_method_impl Release E).
Proof. unfold read_method_impl. qt. Qed.
#[export] Hint Resolve qt_read_method_impl : qt.
Lemma qt_read_module_ref (E : tenv) : quiet (read_module_ref Release E).
Proof. unfold read_module_ref. qt. Qed.
#[export] Hint Resolve qt_read_module_ref : qt.
Lemma qt_read_type_spec (E : tenv) : quiet (read_type_spec Release E).
Proof. unfold read_type_spec. qt. Qed.
#[export] Hint Resolve qt_read_type_spec : qt.
Lemma qt_read_impl_map (E : tenv) : quiet (read_impl_map Release E).
Proof. unfold read_impl_map. qt. Qed.
#[export] Hint Resolve qt_read_impl_map : qt.
Lemma qt_read_field_rva (E : tenv) : quiet (read_field_rva Release E).
Proof. unfold read_field_rva. qt. Qed.
#[export] Hint Resolve qt_read_field_rva : qt.
Lemma qt_read_assembly (E : tenv) : quiet (read_assembly Release E).
Proof. unfold read_assembly. qt. Qed.
#[export] Hint Resolve qt_read_assembly : qt.
Lemma qt_read_assembly_processor (E : tenv) : quiet (read_assembly_processor Release E).
Proof. unfold read_assembly_processor. qt. Qed.
#[export] Hint Resolve qt_read_assembly_processor : qt.
Lemma qt_read_assembly_os (E : tenv) : quiet (read_assembly_os Release E).
Proof. unfold read_assembly_os. qt. Qed.
#[export] Hint Resolve qt_read_assembly_os : qt.
Lemma qt_read_assembly_ref (E : tenv) : quiet (read_assembly_ref Release E).
Proof. unfold read_assembly_ref. qt. Qed.
#[export] Hint Resolve qt_read_assembly_ref : qt.
Lemma qt_read_assembly_ref_processor (E : tenv) : quiet (read_assembly_ref_processor Release E).
Proof. unfold read_assembly_ref_processor. qt. Qed.
#[export] Hint Resolve qt_read_assembly_ref_processor : qt.
Lemma qt_read_assembly_ref_os (E : tenv) : quiet (read_assembly_ref_os Release E).
Proof. unfold read_assembly_ref_os. qt. Qed.
#[export] Hint Resolve qt_read_assembly_ref_os : qt.
Lemma qt_read_file (E : tenv) : quiet (read_file Release E).
Proof. unfold read_file. qt. Qed.
#[export] Hint Resolve qt_read_file : qt.
Lemma qt_read_exported_type (E : tenv) : quiet (read_exported_type Release E).
Proof. unfold read_exported_type. qt. Qed.
#[export] Hint Resolve qt_read_exported_type : qt.
Lemma qt_read_manifest_resource (E : tenv) : quiet (read_manifest_resource Release E).
Proof. unfold read_manifest_resource. qt. Qed.
#[export] Hint Resolve qt_read_manifest_resource : qt.
Lemma qt_read_nested_class (E : tenv) : quiet (read_nested_class Release E).
Proof. unfold read_nested_class. qt. Qed.
#[export] Hint Resolve qt_read_nested_class : qt.
Lemma qt_read_generic_param (E : tenv) : quiet (read_generic_param Release E).
Proof. unfold read_generic_param. qt. Qed.
#[export] Hint Resolve qt_read_generic_param : qt.
Lemma qt_read_method_spec (E : tenv) : quiet (read_method_spec Release E).
Proof. unfold read_method_spec. qt. Qed.
#[export] Hint Resolve qt_read_method_spec : qt.
Lemma qt_read_generic_param_constraint (E : tenv) : quiet (read_generic_param_constraint Release E).
Proof. unfold read_generic_param_constraint. qt. Qed.
#[export] Hint Resolve qt_read_generic_param_constraint : qt.
Lemma qt_read_table {A} (E : tenv) (t : table) (row : M reader A) : quiet row -> quiet (@read_table A E t row).
Proof. intro. unfold read_table. qt. Qed.
#[export] Hint Resolve qt_read_table : qt.
Lemma qt_read_tables (E : tenv) : quiet (read_tables Release E).
Proof. unfold read_tables. qt. Qed.
#[export] Hint Resolve qt_read_tables : qt.
Lemma qt_read_table_stream  : quiet (read_table_stream Release).
Proof. unfold read_table_stream. qt. Qed.
#[export] Hint Resolve qt_read_table_stream : qt.
Lemma qt_table_index {A} (rows : list A) (h : N) : quiet_res (@table_index A Release rows h).
Proof. unfold table_index. qt. Qed.
#[export] Hint Resolve qt_table_index : qt.

(** ** Blob *)

Lemma qt_strings_get (index : N) : quiet (strings_get index).
Proof. unfold strings_get. qt. Qed.
#[export] Hint Resolve qt_strings_get : qt.
Lemma qt_rd_be (n : N) (e : string) : quiet (rd_be Release n e).
Proof. unfold rd_be. qt. Qed.
#[export] Hint Resolve qt_rd_be : qt.
Lemma qt_read_compressed_u32  : quiet (read_compressed_u32 Release).
Proof. unfold read_compressed_u32. qt. Qed.
#[export] Hint Resolve qt_read_compressed_u32 : qt.
Lemma qt_read_utf16_str  : quiet (read_utf16_str Release).
Proof. unfold read_utf16_str. qt. Qed.
#[export] Hint Resolve qt_read_utf16_str : qt.
Lemma qt_blob_reader_new (data : list byte) : quiet_res (blob_reader_new Release data).
Proof. unfold blob_reader_new. qt. Qed.
#[export] Hint Resolve qt_blob_reader_new : qt.
Lemma qt_blob_heap_reader (heap : list byte) (h : N) : quiet_res (blob_heap_reader Release heap h).
Proof. unfold blob_heap_reader. qt. Qed.
#[export] Hint Resolve qt_blob_heap_reader : qt.
Lemma qt_read_array_shape  : quiet (read_array_shape Release).
Proof. unfold read_array_shape. qt. Qed.
#[export] Hint Resolve qt_read_array_shape : qt.
Lemma qt_read_type_def_or_ref  : quiet (read_type_def_or_ref Release).
Proof. unfold read_type_def_or_ref. qt. Qed.
#[export] Hint Resolve qt_read_type_def_or_ref : qt.
Lemma qt_element_type_f (fuel : nat) : quiet (element_type_f fuel Release).
Proof. induction fuel as [|fuel IH]; cbn [element_type_f]; qt. Qed.
#[export] Hint Resolve qt_element_type_f : qt.
Lemma qt_read_element_type  : quiet (read_element_type Release).
Proof. unfold read_element_type. qt. Qed.
#[export] Hint Resolve qt_read_element_type : qt.
Lemma qt_read_field_signature  : quiet (read_field_signature Release).
Proof. unfold read_field_signature. qt. Qed.
#[export] Hint Resolve qt_read_field_signature : qt.
Lemma qt_read_method_signature  : quiet (read_method_signature Release).
Proof. unfold read_method_signature. qt. Qed.
#[export] Hint Resolve qt_read_method_signature : qt.
Lemma qt_read_property_signature  : quiet (read_property_signature Release).
Proof. unfold read_property_signature. qt. Qed.
#[export] Hint Resolve qt_read_property_signature : qt.
Lemma qt_read_method_spec_sig  : quiet (read_method_spec_sig Release).
Proof. unfold read_method_spec_sig. qt. Qed.
#[export] Hint Resolve qt_read_method_spec_sig : qt.
Lemma qt_read_type_spec_sig  : quiet (read_type_spec_sig Release).
Proof. unfold read_type_spec_sig. qt. Qed.
#[export] Hint Resolve qt_read_type_spec_sig : qt.
Lemma qt_read_marshal_scalar  : quiet (read_marshal_scalar Release).
Proof. unfold read_marshal_scalar. qt. Qed.
#[export] Hint Resolve qt_read_marshal_scalar : qt.
Lemma qt_read_marshal_descriptor  : quiet (read_marshal_descriptor Release).
Proof. unfold read_marshal_descriptor. qt. Qed.
#[export] Hint Resolve qt_read_marshal_descriptor : qt.

(** ** Metadata *)

Lemma qt_slice_from (d : list byte) (a : N) : quiet (slice_from d a).
Proof. unfold slice_from. qt. Qed.
#[export] Hint Resolve qt_slice_from : qt.
Lemma qt_slice_range (d : list byte) (a : N) (b : N) : quiet (slice_range d a b).
Proof. unfold slice_range. qt. Qed.
#[export] Hint Resolve qt_slice_range : qt.
Lemma qt_set_stream (name : list byte) (h : stream_header) (s : stream_headers) : quiet (set_stream name h s).
Proof. unfold set_stream. qt. Qed.
#[export] Hint Resolve qt_set_stream : qt.
Lemma qt_read_stream_headers (n : nat) (s : stream_headers) : quiet (read_stream_headers Release n s).
Proof. revert s. induction n as [|n IH]; intro s; cbn [read_stream_headers]; qt. Qed.
#[export] Hint Resolve qt_read_stream_headers : qt.
Lemma qt_read_root  : quiet (read_root Release).
Proof. unfold read_root. qt. Qed.
#[export] Hint Resolve qt_read_root : qt.
Lemma qt_stream_slice (md : list byte) (h : stream_header) : quiet (stream_slice Release md h).
Proof. unfold stream_slice. qt. Qed.
#[export] Hint Resolve qt_stream_slice : qt.
Lemma qt_unwrap {S} {A} (o : option A) : quiet (@unwrap S A o).
Proof. unfold unwrap. qt. Qed.
#[export] Hint Resolve qt_unwrap : qt.
Lemma qt_read_metadata (data : list byte) : quiet (read_metadata Release data).
Proof. unfold read_metadata. qt. Qed.
#[export] Hint Resolve qt_read_metadata : qt.
Lemma qt_get_pe_data (m : metadata) (rs : rva_and_size) : quiet (get_pe_data Release m rs).
Proof. unfold get_pe_data. qt. Qed.
#[export] Hint Resolve qt_get_pe_data : qt.
Lemma qt_get_resource_data (m : metadata) (offset : N) : quiet (get_resource_data Release m offset).
Proof. unfold get_resource_data. qt. Qed.
#[export] Hint Resolve qt_get_resource_data : qt.

(** ** Runtime *)

Lemma qt_modify_type (t : tref) (f : type_info -> type_info) : quiet (modify_type t f).
Proof. unfold modify_type. qt. Qed.
#[export] Hint Resolve qt_modify_type : qt.
Lemma qt_modify_assembly (a : aref) (f : assembly_info -> assembly_info) : quiet (modify_assembly a f).
Proof. unfold modify_assembly. qt. Qed.
#[export] Hint Resolve qt_modify_assembly : qt.
Lemma qt_the_type (t : tref) : quiet (the_type t).
Proof. unfold the_type. qt. Qed.
#[export] Hint Resolve qt_the_type : qt.
Lemma qt_the_assembly (a : aref) : quiet (the_assembly a).
Proof. unfold the_assembly. qt. Qed.
#[export] Hint Resolve qt_the_assembly : qt.
Lemma qt_get_type (n : name) : quiet (get_type n).
Proof. unfold get_type. qt. Qed.
#[export] Hint Resolve qt_get_type : qt.
Lemma qt_next_type_id  : quiet (next_type_id Release).
Proof. unfold next_type_id. qt. Qed.
#[export] Hint Resolve qt_next_type_id : qt.
Lemma qt_add_type (ti : type_info) : quiet (add_type ti).
Proof. unfold add_type. qt. Qed.
#[export] Hint Resolve qt_add_type : qt.
Lemma qt_the_primitives  : quiet (the_primitives).
Proof. unfold the_primitives. qt. Qed.
#[export] Hint Resolve qt_the_primitives : qt.
Lemma qt_type_def_or_ref_name (md : metadata) (h : row_ref) : quiet (type_def_or_ref_name Release md h).
Proof. unfold type_def_or_ref_name. qt. Qed.
#[export] Hint Resolve qt_type_def_or_ref_name : qt.
Lemma qt_type_eq (t : tref) (u : tref) : quiet (type_eq t u).
Proof. unfold type_eq. qt. Qed.
#[export] Hint Resolve qt_type_eq : qt.
Lemma qt_named (s : string) : quiet (named s).
Proof. unfold named. qt. Qed.
#[export] Hint Resolve qt_named : qt.
Lemma qt_array_of (element : tref) : quiet (array_of Release element).
Proof. unfold array_of. qt. Qed.
#[export] Hint Resolve qt_array_of : qt.
Lemma qt_type_for_element (md : metadata) (e : element_type) : quiet (type_for_element Release md e).
Proof. induction e; cbn [type_for_element]; qt. Qed.
#[export] Hint Resolve qt_type_for_element : qt.
Lemma qt_contains_type (l : list tref) (other : tref) : quiet (contains_type l other).
Proof. induction l as [|x l IH]; cbn [contains_type]; qt. Qed.
#[export] Hint Resolve qt_contains_type : qt.
Lemma qt_instance_of (fuel : nat) (t : tref) (other : tref) : quiet (instance_of fuel t other).
Proof. revert t. induction fuel as [|fuel IH]; intro t; cbn [instance_of]; qt. Qed.
#[export] Hint Resolve qt_instance_of : qt.
Lemma qt_is_reference_type (fuel : nat) (t : tref) : quiet (is_reference_type fuel t).
Proof. unfold is_reference_type. qt. Qed.
#[export] Hint Resolve qt_is_reference_type : qt.
Lemma qt_try_sizes (l : list (string * N)) (t : tref) : quiet (try_sizes l t).
Proof. induction l as [|x l IH]; cbn [try_sizes]; qt. Qed.
#[export] Hint Resolve qt_try_sizes : qt.
Lemma qt_type_size (fuel : nat) (t : tref) : quiet (type_size fuel Release t).
Proof. revert t. induction fuel as [|fuel IH]; intro t; cbn [type_size]; qt. Qed.
#[export] Hint Resolve qt_type_size : qt.
Lemma qt_all_fields (fuel : nat) (t : tref) : quiet (all_fields fuel t).
Proof. revert t. induction fuel as [|fuel IH]; intro t; cbn [all_fields]; qt. Qed.
#[export] Hint Resolve qt_all_fields : qt.
Lemma qt_all_methods (fuel : nat) (t : tref) : quiet (all_methods fuel t).
Proof. revert t. induction fuel as [|fuel IH]; intro t; cbn [all_methods]; qt. Qed.
#[export] Hint Resolve qt_all_methods : qt.
Lemma qt_get_field (t : tref) (n : name) : quiet (get_field t n).
Proof. unfold get_field. qt. Qed.
#[export] Hint Resolve qt_get_field : qt.
Lemma qt_get_method (t : tref) (n : name) : quiet (get_method t n).
Proof. unfold get_method. qt. Qed.
#[export] Hint Resolve qt_get_method : qt.
Lemma qt_get_row {A} (l : list A) (tok : N) : quiet (@get_row A Release l tok).
Proof. unfold get_row. qt. Qed.
#[export] Hint Resolve qt_get_row : qt.
Lemma qt_resolve_method (a : aref) (tok : N) : quiet (resolve_method Release a tok).
Proof. unfold resolve_method. qt. Qed.
#[export] Hint Resolve qt_resolve_method : qt.
Lemma qt_resolve_field (a : aref) (tok : N) : quiet (resolve_field Release a tok).
Proof. unfold resolve_field. qt. Qed.
#[export] Hint Resolve qt_resolve_field : qt.
Lemma qt_resolve_type (a : aref) (tok : N) : quiet (resolve_type Release a tok).
Proof. unfold resolve_type. qt. Qed.
#[export] Hint Resolve qt_resolve_type : qt.
Lemma qt_get_string (a : aref) (tok : N) : quiet (get_string Release a tok).
Proof. unfold get_string. qt. Qed.
#[export] Hint Resolve qt_get_string : qt.

(** ** Loader *)

Lemma qt_row_at {A} (rows : list A) (h : N) : quiet (@row_at A Release rows h).
Proof. unfold row_at. qt. Qed.
#[export] Hint Resolve qt_row_at : qt.
Lemma qt_catch_type (md : metadata) (tok : N) : quiet (catch_type Release md tok).
Proof. unfold catch_type. qt. Qed.
#[export] Hint Resolve qt_catch_type : qt.
Lemma qt_new_clause (md : metadata) (k : clause_kind) (try_offset : N) (try_length : N) (handler_offset : N) (handler_length : N) (token_or_filter : N) : quiet (new_clause Release md k try_offset try_length handler_offset handler_length token_or_filter).
Proof. unfold new_clause. qt. Qed.
#[export] Hint Resolve qt_new_clause : qt.
Lemma qt_read_clauses (md : metadata) (w1 : N) (w2 : N) (n : nat) (r : reader) : quiet (read_clauses Release md w1 w2 n r).
Proof. revert r. induction n as [|n IH]; intro r; cbn [read_clauses]; qt. Qed.
#[export] Hint Resolve qt_read_clauses : qt.
Lemma qt_align4 (n : nat) : quiet (align4 Release n).
Proof. induction n as [|n IH]; cbn [align4]; qt. Qed.
#[export] Hint Resolve qt_align4 : qt.
Lemma qt_read_section (md : metadata) (r : reader) : quiet (read_section Release md r).
Proof. unfold read_section. qt. Qed.
#[export] Hint Resolve qt_read_section : qt.
Lemma qt_read_locals (md : metadata) (n : nat) (r : reader) : quiet (read_locals Release md n r).
Proof. revert r. induction n as [|n IH]; intro r; cbn [read_locals]; qt. Qed.
#[export] Hint Resolve qt_read_locals : qt.
Lemma qt_load_locals (md : metadata) (locals_token : N) : quiet (load_locals Release md locals_token).
Proof. unfold load_locals. qt. Qed.
#[export] Hint Resolve qt_load_locals : qt.
Lemma qt_read_code (n : N) : quiet (read_code Release n).
Proof. unfold read_code. qt. Qed.
#[export] Hint Resolve qt_read_code : qt.
Lemma qt_load_body (md : metadata) (rva : N) : quiet (load_body Release md rva).
Proof. unfold load_body. qt. Qed.
#[export] Hint Resolve qt_load_body : qt.
Lemma qt_signature_at {A} (md : metadata) (h : N) (m : M reader A) : quiet m -> quiet (@signature_at A Release md h m).
Proof. intro. unfold signature_at. qt. Qed.
#[export] Hint Resolve qt_signature_at : qt.
Lemma qt_load_field (md : metadata) (declaring : tref) (i : N) (offset : N) : quiet (load_field Release md declaring i offset).
Proof. unfold load_field. qt. Qed.
#[export] Hint Resolve qt_load_field : qt.
Lemma qt_param_type_names (md : metadata) (es : list element_type) : quiet (param_type_names Release md es).
Proof. unfold param_type_names. qt. Qed.
#[export] Hint Resolve qt_param_type_names : qt.
Lemma qt_load_params (md : metadata) (h : N) (es : list element_type) : quiet (load_params Release md h es).
Proof. revert h. induction es as [|e es IH]; intro h; cbn [load_params]; qt. Qed.
#[export] Hint Resolve qt_load_params : qt.
Lemma qt_load_method (md : metadata) (declaring : tref) (i : N) : quiet (load_method Release md declaring i).
Proof. unfold load_method. qt. Qed.
#[export] Hint Resolve qt_load_method : qt.
Lemma qt_load_type (md : metadata) (a : aref) (i : N) : quiet (load_type Release md a i).
Proof. unfold load_type. qt. Qed.
#[export] Hint Resolve qt_load_type : qt.
Lemma qt_resolve_base (md : metadata) (t : tref) (i : N) : quiet (resolve_base Release md t i).
Proof. unfold resolve_base. qt. Qed.
#[export] Hint Resolve qt_resolve_base : qt.
Lemma qt_resolve_kind (md : metadata) (t : tref) (i : N) : quiet (resolve_kind Release md t i).
Proof. unfold resolve_kind. qt. Qed.
#[export] Hint Resolve qt_resolve_kind : qt.
Lemma qt_reserve (n : N) : quiet (reserve n).
Proof. unfold reserve. qt. Qed.
#[export] Hint Resolve qt_reserve : qt.
Lemma qt_run_length (md : metadata) (i : N) (list_of : type_def_row -> N) (total : N) : quiet (run_length Release md i list_of total).
Proof. unfold run_length. qt. Qed.
#[export] Hint Resolve qt_run_length : qt.
Lemma qt_load_fields (fuel : nat) (md : metadata) (t : tref) (n : nat) (i : N) (offset : N) : quiet (load_fields fuel Release md t n i offset).
Proof. revert i offset. induction n as [|n IH]; intros i offset; cbn [load_fields]; qt. Qed.
#[export] Hint Resolve qt_load_fields : qt.
Lemma qt_resolve_fields (fuel : nat) (md : metadata) (t : tref) (i : N) : quiet (resolve_fields fuel Release md t i).
Proof. unfold resolve_fields. qt. Qed.
#[export] Hint Resolve qt_resolve_fields : qt.
Lemma qt_resolve_methods (md : metadata) (t : tref) (i : N) : quiet (resolve_methods Release md t i).
Proof. unfold resolve_methods. qt. Qed.
#[export] Hint Resolve qt_resolve_methods : qt.
Lemma qt_resolve (fuel : nat) (md : metadata) (t : tref) (i : N) : quiet (resolve fuel Release md t i).
Proof. unfold resolve. qt. Qed.
#[export] Hint Resolve qt_resolve : qt.
Lemma qt_full_name_at (md : metadata) (nh : N) (nsh : N) : quiet (full_name_at md nh nsh).
Proof. unfold full_name_at. qt. Qed.
#[export] Hint Resolve qt_full_name_at : qt.
Lemma qt_load_method_refs (md : metadata) (rows : list member_ref_row) : quiet (load_method_refs Release md rows).
Proof. induction rows as [|r rows IH]; cbn [load_method_refs]; qt. Qed.
#[export] Hint Resolve qt_load_method_refs : qt.
Lemma qt_load_type_refs (md : metadata) : quiet (load_type_refs Release md).
Proof. unfold load_type_refs. qt. Qed.
#[export] Hint Resolve qt_load_type_refs : qt.
Lemma qt_load_interface_impl (md : metadata) (ii : interface_impl_row) : quiet (load_interface_impl Release md ii).
Proof. unfold load_interface_impl. qt. Qed.
#[export] Hint Resolve qt_load_interface_impl : qt.
Lemma qt_load_types (md : metadata) (a : aref) (n : nat) (i : N) : quiet (load_types Release md a n i).
Proof. revert i. induction n as [|n IH]; intro i; cbn [load_types]; qt. Qed.
#[export] Hint Resolve qt_load_types : qt.
Lemma qt_resolve_types (fuel : nat) (md : metadata) (ts : list tref) (i : N) : quiet (resolve_types fuel Release md ts i).
Proof. revert i. induction ts as [|t ts IH]; intro i; cbn [resolve_types]; qt. Qed.
#[export] Hint Resolve qt_resolve_types : qt.
Lemma qt_load_contents (fuel : nat) (md : metadata) (a : aref) : quiet (load_contents fuel Release md a).
Proof. unfold load_contents. qt. Qed.
#[export] Hint Resolve qt_load_contents : qt.
Lemma qt_drop_on_error (a : aref) (m : M vm unit) : quiet m -> quiet (drop_on_error a m).
Proof. intros H s w. unfold drop_on_error. specialize (H s). destruct (m s); intro E; try discriminate E. injection E as ->. now apply H. Qed.
#[export] Hint Resolve qt_drop_on_error : qt.
Lemma qt_new_assembly (ai : assembly_info) : quiet (new_assembly ai).
Proof. unfold new_assembly. qt. Qed.
#[export] Hint Resolve qt_new_assembly : qt.
Lemma qt_load_data (fuel : nat) (fs : file_system) (data : list byte) : quiet (load_data fuel Release fs data).
Proof. revert data. induction fuel as [|fuel IH]; intro data; cbn [load_data]; qt. Qed.
#[export] Hint Resolve qt_load_data : qt.
Lemma qt_load_path (fuel : nat) (fs : file_system) (path : name * name) : quiet (load_path fuel Release fs path).
Proof. unfold load_path. qt. Qed.
#[export] Hint Resolve qt_load_path : qt.
Lemma qt_load_assembly (fuel : nat) (fs : file_system) (n : name) : quiet (load_assembly fuel Release fs n).
Proof. unfold load_assembly. qt. Qed.
#[export] Hint Resolve qt_load_assembly : qt.
Lemma qt_new_runtime (fuel : nat) (fs : file_system) (paths : list name) (system_runtime : list byte) (system_console : list byte) : quiet_res (new_runtime fuel Release fs paths system_runtime system_console).
Proof. unfold new_runtime. qt. Qed.
#[export] Hint Resolve qt_new_runtime : qt.

(** ** Value *)

Lemma qt_arith {S} (t : ity) (x : Z) : quiet (@arith S Release t x).
Proof. unfold arith. qt. Qed.
#[export] Hint Resolve qt_arith : qt.
Lemma qt_int_div {S} (t : ity) (a : Z) (b : Z) : quiet (@int_div S t a b).
Proof. unfold int_div. qt. Qed.
#[export] Hint Resolve qt_int_div : qt.
Lemma qt_int_rem {S} (t : ity) (a : Z) (b : Z) : quiet (@int_rem S t a b).
Proof. unfold int_rem. qt. Qed.
#[export] Hint Resolve qt_int_rem : qt.
Lemma qt_shift_amount {S} (t : ity) (b : Z) : quiet (@shift_amount S Release t b).
Proof. unfold shift_amount. qt. Qed.
#[export] Hint Resolve qt_shift_amount : qt.
Lemma qt_binary {S} (what : string) (int_case : ity -> Z -> Z -> M S value) (float_case : option fop) (a : value) (b : value) :
  ~ In what overflow_panics -> (forall t x y, quiet (int_case t x y)) -> quiet (@binary S what int_case float_case a b).
Proof.
  intros W H. assert (P : quiet (S := S) (A := value) (panic what)) by (intros s w [= <-]; exact W). unfold binary. clear W.
  destruct a, b; try exact P; repeat match goal with |- quiet (if ?c then _ else _) => destruct c | |- quiet (match ?c with _ => _ end) => destruct c end; try exact P; try apply qt_ret. apply H.
Qed.
Lemma qt_v_add {S} (a b : value) : quiet (@v_add S Release a b).
Proof. unfold v_add. apply qt_binary; [cbn; intuition discriminate|intros]. qt. Qed.
#[export] Hint Resolve qt_v_add : qt.
Lemma qt_v_sub {S} (a b : value) : quiet (@v_sub S Release a b).
Proof. unfold v_sub. apply qt_binary; [cbn; intuition discriminate|intros]. qt. Qed.
#[export] Hint Resolve qt_v_sub : qt.
Lemma qt_v_mul {S} (a b : value) : quiet (@v_mul S Release a b).
Proof. unfold v_mul. apply qt_binary; [cbn; intuition discriminate|intros]. qt. Qed.
#[export] Hint Resolve qt_v_mul : qt.
Lemma qt_v_div {S} (a b : value) : quiet (@v_div S a b).
Proof. unfold v_div. apply qt_binary; [cbn; intuition discriminate|intros]. qt. Qed.
#[export] Hint Resolve qt_v_div : qt.
Lemma qt_v_rem {S} (a b : value) : quiet (@v_rem S a b).
Proof. unfold v_rem. apply qt_binary; [cbn; intuition discriminate|intros]. qt. Qed.
#[export] Hint Resolve qt_v_rem : qt.
Lemma qt_v_and {S} (a b : value) : quiet (@v_and S a b).
Proof. unfold v_and. apply qt_binary; [cbn; intuition discriminate|intros]. qt. Qed.
#[export] Hint Resolve qt_v_and : qt.
Lemma qt_v_or {S} (a b : value) : quiet (@v_or S a b).
Proof. unfold v_or. apply qt_binary; [cbn; intuition discriminate|intros]. qt. Qed.
#[export] Hint Resolve qt_v_or : qt.
Lemma qt_v_xor {S} (a b : value) : quiet (@v_xor S a b).
Proof. unfold v_xor. apply qt_binary; [cbn; intuition discriminate|intros]. qt. Qed.
#[export] Hint Resolve qt_v_xor : qt.
Lemma qt_v_shl {S} (a b : value) : quiet (@v_shl S Release a b).
Proof. unfold v_shl. apply qt_binary; [cbn; intuition discriminate|intros]. qt. Qed.
#[export] Hint Resolve qt_v_shl : qt.
Lemma qt_v_shr {S} (a b : value) : quiet (@v_shr S Release a b).
Proof. unfold v_shr. apply qt_binary; [cbn; intuition discriminate|intros]. qt. Qed.
#[export] Hint Resolve qt_v_shr : qt.
Lemma qt_v_neg {S} (a : value) : quiet (@v_neg S Release a).
Proof. unfold v_neg. qt. Qed.
#[export] Hint Resolve qt_v_neg : qt.
Lemma qt_v_not {S} (a : value) : quiet (@v_not S a).
Proof. unfold v_not. qt. Qed.
#[export] Hint Resolve qt_v_not : qt.
Lemma qt_is_null_or_zero {S} (a : value) : quiet (@is_null_or_zero S a).
Proof. unfold is_null_or_zero. qt. Qed.
#[export] Hint Resolve qt_is_null_or_zero : qt.
Lemma qt_v_cmp {S} (a : value) (b : value) : quiet (@v_cmp S a b).
Proof. unfold v_cmp. qt. Qed.
#[export] Hint Resolve qt_v_cmp : qt.
Lemma qt_v_lt {S} (a : value) (b : value) : quiet (@v_lt S a b).
Proof. unfold v_lt. qt. Qed.
#[export] Hint Resolve qt_v_lt : qt.
Lemma qt_v_le {S} (a : value) (b : value) : quiet (@v_le S a b).
Proof. unfold v_le. qt. Qed.
#[export] Hint Resolve qt_v_le : qt.
Lemma qt_v_gt {S} (a : value) (b : value) : quiet (@v_gt S a b).
Proof. unfold v_gt. qt. Qed.
#[export] Hint Resolve qt_v_gt : qt.
Lemma qt_v_ge {S} (a : value) (b : value) : quiet (@v_ge S a b).
Proof. unfold v_ge. qt. Qed.
#[export] Hint Resolve qt_v_ge : qt.
Lemma qt_v_eq {S} (a : value) (b : value) : quiet (@v_eq S a b).
Proof. unfold v_eq. qt. Qed.
#[export] Hint Resolve qt_v_eq : qt.

(** ** Gc *)

Lemma qt_on_vm {A} (m : M vm A) : quiet m -> quiet (on_vm m).
Proof. intros H s w. unfold on_vm. specialize (H (x_vm s)). destruct (m (x_vm s)); intro E; try discriminate E. injection E as ->. now apply H. Qed.
#[export] Hint Resolve qt_on_vm : qt.
Ltac qt ::= repeat first [qt_auto | match goal with |- quiet (on_vm _) => apply qt_on_vm end | qt_step].
Lemma qt_load (o : obj) (d : N) (n : N) : quiet (load o d n).
Proof. unfold load. qt. Qed.
#[export] Hint Resolve qt_load : qt.
Lemma qt_store (o : obj) (d : N) (bs : list byte) : quiet (store o d bs).
Proof. unfold store. qt. Qed.
#[export] Hint Resolve qt_store : qt.
Lemma qt_vec_reserve (additional : N) : quiet (vec_reserve additional).
Proof. unfold vec_reserve. qt. Qed.
#[export] Hint Resolve qt_vec_reserve : qt.
Lemma qt_vec_resize (n : N) : quiet (vec_resize n).
Proof. unfold vec_resize. qt. Qed.
#[export] Hint Resolve qt_vec_resize : qt.
Lemma qt_ensure_size (size : N) : quiet (ensure_size Release size).
Proof. unfold ensure_size. qt. Qed.
#[export] Hint Resolve qt_ensure_size : qt.
Lemma qt_make_room (size : N) : quiet (make_room Release size).
Proof. unfold make_room. qt. Qed.
#[export] Hint Resolve qt_make_room : qt.
Lemma qt_add_flag (o : obj) (f : N) : quiet (add_flag o f).
Proof. unfold add_flag. qt. Qed.
#[export] Hint Resolve qt_add_flag : qt.
Lemma qt_id_of (t : tref) : quiet (id_of t).
Proof. unfold id_of. qt. Qed.
#[export] Hint Resolve qt_id_of : qt.
Lemma qt_alloc (fuel : nat) (t : tref) : quiet (alloc fuel Release t).
Proof. unfold alloc. qt. Qed.
#[export] Hint Resolve qt_alloc : qt.
Lemma qt_alloc_array (fuel : nat) (element : tref) (length : N) : quiet (alloc_array fuel Release element length).
Proof. unfold alloc_array. qt. Qed.
#[export] Hint Resolve qt_alloc_array : qt.
Lemma qt_alloc_string (text : list N) : quiet (alloc_string Release text).
Proof. unfold alloc_string. qt. Qed.
#[export] Hint Resolve qt_alloc_string : qt.
Lemma qt_flags_of (o : obj) : quiet (flags_of o).
Proof. unfold flags_of. qt. Qed.
#[export] Hint Resolve qt_flags_of : qt.
Lemma qt_as_array (o : obj) : quiet (as_array o).
Proof. unfold as_array. qt. Qed.
#[export] Hint Resolve qt_as_array : qt.
Lemma qt_as_string (o : obj) : quiet (as_string o).
Proof. unfold as_string. qt. Qed.
#[export] Hint Resolve qt_as_string : qt.
Lemma qt_raw_object (o : obj) : quiet (raw_object o).
Proof. unfold raw_object. qt. Qed.
#[export] Hint Resolve qt_raw_object : qt.
Lemma qt_type_of (o : obj) : quiet (type_of o).
Proof. unfold type_of. qt. Qed.
#[export] Hint Resolve qt_type_of : qt.
Lemma qt_set_field (o : obj) (f : field_info) (v : value) : quiet (set_field o f v).
Proof. unfold set_field. qt. Qed.
#[export] Hint Resolve qt_set_field : qt.
Lemma qt_held_as (l : list (held * (primitives -> tref))) (q : primitives) (t : tref) : quiet (held_as l q t).
Proof. induction l as [|x l IH]; cbn [held_as]; qt. Qed.
#[export] Hint Resolve qt_held_as : qt.
Lemma qt_get_field_value (o : obj) (f : field_info) : quiet (get_field_value o f).
Proof. unfold get_field_value. qt. Qed.
#[export] Hint Resolve qt_get_field_value : qt.
Lemma qt_array_slice (o : obj) (h : held) : quiet (array_slice o h).
Proof. unfold array_slice. qt. Qed.
#[export] Hint Resolve qt_array_slice : qt.
Lemma qt_slice_get (o : obj) (h : held) (n : N) (i : N) : quiet (slice_get o h n i).
Proof. unfold slice_get. qt. Qed.
#[export] Hint Resolve qt_slice_get : qt.
Lemma qt_slice_set (o : obj) (h : held) (n : N) (i : N) (bs : list byte) : quiet (slice_set o h n i bs).
Proof. unfold slice_set. qt. Qed.
#[export] Hint Resolve qt_slice_set : qt.
Lemma qt_array_set (o : obj) (i : N) (v : value) : quiet (array_set o i v).
Proof. unfold array_set. qt. Qed.
#[export] Hint Resolve qt_array_set : qt.
Lemma qt_string_data (o : obj) : quiet (string_data o).
Proof. unfold string_data. qt. Qed.
#[export] Hint Resolve qt_string_data : qt.

(** ** Interp *)

Lemma qt_push (v : value) : quiet (push v).
Proof. unfold push. qt. Qed.
#[export] Hint Resolve qt_push : qt.
Lemma qt_try_pop  : quiet (try_pop).
Proof. unfold try_pop. qt. Qed.
#[export] Hint Resolve qt_try_pop : qt.
Lemma qt_pop  : quiet (pop).
Proof. unfold pop. qt. Qed.
#[export] Hint Resolve qt_pop : qt.
Lemma qt_pop_i32  : quiet (pop_i32).
Proof. unfold pop_i32. qt. Qed.
#[export] Hint Resolve qt_pop_i32 : qt.
Lemma qt_pop_array  : quiet (pop_array).
Proof. unfold pop_array. qt. Qed.
#[export] Hint Resolve qt_pop_array : qt.
Lemma qt_peek_top  : quiet (peek_top).
Proof. unfold peek_top. qt. Qed.
#[export] Hint Resolve qt_peek_top : qt.
Lemma qt_stackalloc (n : N) : quiet (stackalloc n).
Proof. unfold stackalloc. qt. Qed.
#[export] Hint Resolve qt_stackalloc : qt.
Lemma qt_cell_get (c : cells) (i : N) : quiet (cell_get c i).
Proof. unfold cell_get. qt. Qed.
#[export] Hint Resolve qt_cell_get : qt.
Lemma qt_cell_set (c : cells) (i : N) (v : value) : quiet (cell_set c i v).
Proof. unfold cell_set. qt. Qed.
#[export] Hint Resolve qt_cell_set : qt.
Lemma qt_code_at (fr : frame) (i : N) : quiet (code_at fr i).
Proof. unfold code_at. qt. Qed.
#[export] Hint Resolve qt_code_at : qt.
Lemma qt_get_opcode (fr : frame) : quiet (get_opcode fr).
Proof. unfold get_opcode. qt. Qed.
#[export] Hint Resolve qt_get_opcode : qt.
Lemma qt_il_get (fr : frame) (n : N) : quiet (il_get fr n).
Proof. unfold il_get. qt. Qed.
#[export] Hint Resolve qt_il_get : qt.
Lemma qt_next (fr : frame) : quiet (next fr).
Proof. unfold next. qt. Qed.
#[export] Hint Resolve qt_next : qt.
Lemma qt_il_signed (fr : frame) (n : N) : quiet (il_signed fr n).
Proof. unfold il_signed. qt. Qed.
#[export] Hint Resolve qt_il_signed : qt.
Lemma qt_ldc (fr : frame) (v : value) : quiet (ldc fr v).
Proof. unfold ldc. qt. Qed.
#[export] Hint Resolve qt_ldc : qt.
Lemma qt_ld (fr : frame) (c : cells) (i : N) : quiet (ld fr c i).
Proof. unfold ld. qt. Qed.
#[export] Hint Resolve qt_ld : qt.
Lemma qt_st (fr : frame) (c : cells) (i : N) : quiet (st fr c i).
Proof. unfold st. qt. Qed.
#[export] Hint Resolve qt_st : qt.
Lemma qt_ld_n (n : N) (fr : frame) (c : cells) : quiet (ld_n n fr c).
Proof. unfold ld_n. qt. Qed.
#[export] Hint Resolve qt_ld_n : qt.
Lemma qt_st_n (n : N) (fr : frame) (c : cells) : quiet (st_n n fr c).
Proof. unfold st_n. qt. Qed.
#[export] Hint Resolve qt_st_n : qt.
Lemma qt_br (n : N) (fr : frame) : quiet (br n fr).
Proof. unfold br. qt. Qed.
#[export] Hint Resolve qt_br : qt.
Lemma qt_br_if (n : N) (fr : frame) (zero : bool) : quiet (br_if n fr zero).
Proof. unfold br_if. qt. Qed.
#[export] Hint Resolve qt_br_if : qt.
Lemma qt_br_cmp (n : N) (fr : frame) (test : value -> value -> M machine bool) : (forall a b, quiet (test a b)) -> quiet (br_cmp n fr test).
Proof. intro. unfold br_cmp. qt. Qed.
#[export] Hint Resolve qt_br_cmp : qt.
Lemma qt_compare (fr : frame) (test : value -> value -> M machine bool) : (forall a b, quiet (test a b)) -> quiet (compare fr test).
Proof. intro. unfold compare. qt. Qed.
#[export] Hint Resolve qt_compare : qt.
Lemma qt_eq_test (a : value) (b : value) : quiet (eq_test a b).
Proof. unfold eq_test. qt. Qed.
#[export] Hint Resolve qt_eq_test : qt.
Lemma qt_op2 (fr : frame) (f : value -> value -> M machine value) : (forall a b, quiet (f a b)) -> quiet (op2 fr f).
Proof. intro. unfold op2. qt. Qed.
#[export] Hint Resolve qt_op2 : qt.
Lemma qt_op1 (fr : frame) (f : value -> M machine value) : (forall a, quiet (f a)) -> quiet (op1 fr f).
Proof. intro. unfold op1. qt. Qed.
#[export] Hint Resolve qt_op1 : qt.
Ltac qt ::= repeat first [qt_auto | match goal with |- quiet (on_vm _) => apply qt_on_vm | |- quiet (op1 _ _) => apply qt_op1; intros | |- quiet (op2 _ _) => apply qt_op2; intros | |- quiet (br_cmp _ _ _) => apply qt_br_cmp; intros | |- quiet (compare _ _) => apply qt_compare; intros end | qt_step].
Lemma qt_pop_args (c : cells) (n : nat) : quiet (pop_args c n).
Proof. induction n as [|n IH]; cbn [pop_args]; qt. Qed.
#[export] Hint Resolve qt_pop_args : qt.
Lemma qt_method_call (fr : frame) (tok : N) (result : option value) : quiet (method_call Release fr tok result).
Proof. unfold method_call. qt. Qed.
#[export] Hint Resolve qt_method_call : qt.
Lemma qt_newobj (fuel : nat) (fr : frame) : quiet (newobj fuel Release fr).
Proof. unfold newobj. qt. Qed.
#[export] Hint Resolve qt_newobj : qt.
Lemma qt_stfld (fr : frame) : quiet (stfld Release fr).
Proof. unfold stfld. qt. Qed.
#[export] Hint Resolve qt_stfld : qt.
Lemma qt_ldfld (fr : frame) : quiet (ldfld Release fr).
Proof. unfold ldfld. qt. Qed.
#[export] Hint Resolve qt_ldfld : qt.
Lemma qt_newarr (fuel : nat) (fr : frame) : quiet (newarr fuel Release fr).
Proof. unfold newarr. qt. Qed.
#[export] Hint Resolve qt_newarr : qt.
Lemma qt_i32_slice (o : obj) : quiet (i32_slice o).
Proof. unfold i32_slice. qt. Qed.
#[export] Hint Resolve qt_i32_slice : qt.
Lemma qt_stelem_i4 (fr : frame) : quiet (stelem_i4 fr).
Proof. unfold stelem_i4. qt. Qed.
#[export] Hint Resolve qt_stelem_i4 : qt.
Lemma qt_ldelem_i4 (fr : frame) : quiet (ldelem_i4 fr).
Proof. unfold ldelem_i4. qt. Qed.
#[export] Hint Resolve qt_ldelem_i4 : qt.
Lemma qt_ldstr (fr : frame) : quiet (ldstr Release fr).
Proof. unfold ldstr. qt. Qed.
#[export] Hint Resolve qt_ldstr : qt.
Lemma qt_ret_op (fr : frame) : quiet (ret_op fr).
Proof. unfold ret_op. qt. Qed.
#[export] Hint Resolve qt_ret_op : qt.
Lemma qt_exec_op (fuel : nat) (op : opcode) (fr : frame) : quiet (exec_op fuel Release op fr).
Proof. unfold exec_op. qt. Qed.
#[export] Hint Resolve qt_exec_op : qt.
Lemma qt_step (fuel : nat) (fr : frame) : quiet (step fuel Release fr).
Proof. unfold step. qt. Qed.
#[export] Hint Resolve qt_step : qt.
Lemma qt_console_write (args : cells) : quiet (console_write args).
Proof. unfold console_write. qt. Qed.
#[export] Hint Resolve qt_console_write : qt.
Lemma qt_in_frame {A} (m : M machine A) : quiet m -> quiet (in_frame m).
Proof. intros H s w. unfold in_frame. cbv zeta. specialize (H (set_alloc s 0)). destruct (m (set_alloc s 0)); intro E; try discriminate E. injection E as ->. now apply H. Qed.
#[export] Hint Resolve qt_in_frame : qt.
Ltac qt ::= repeat first [qt_auto | match goal with |- quiet (on_vm _) => apply qt_on_vm | |- quiet (in_frame _) => apply qt_in_frame end | qt_step].
Lemma qt_invoke (run : frame -> M machine (option value)) (m : method_info) (args : cells) : (forall fr, quiet (run fr)) -> quiet (invoke run m args).
Proof. intro. unfold invoke. qt. Qed.
#[export] Hint Resolve qt_invoke : qt.
Lemma qt_push_if (o : option value) : quiet (push_if o).
Proof. unfold push_if. qt. Qed.
#[export] Hint Resolve qt_push_if : qt.
Lemma qt_run (fuel : nat) (fr : frame) : quiet (run fuel Release fr).
Proof. revert fr. induction fuel as [|fuel IH]; intro fr; cbn [run]; qt. Qed.
#[export] Hint Resolve qt_run : qt.
Lemma qt_execute (fuel : nat) (m : method_info) (params : list value) : quiet (execute fuel Release m params).
Proof. unfold execute. qt. destruct (the_type _ _); qt. Qed.
#[export] Hint Resolve qt_execute : qt.

(** ** Host *)

Lemma qt_test_program (fuel : nat) (fs : file_system) (paths : list name) (system_runtime : list byte) (system_console : list byte) (argument : option (name * name)) : quiet_res (test_program fuel Release fs paths system_runtime system_console argument).
Proof. unfold test_program. qt. Qed.
#[export] Hint Resolve qt_test_program : qt.


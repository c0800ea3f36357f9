(** Debug and release builds: when two programs do the same unless the first one panics because of an arithmetic
    overflow, and the ways in which such programs are put together. *)
From Coq Require Import NArith ZArith Lia String List Bool.
From Coq.Strings Require Import Byte.
From Verif Require Import Base Utf BinaryReader Pe Attributes Tables TablesApi Blob Metadata Runtime Loader Value Gc Opcodes Interp Host SpecProfiles.
Import ListNotations.
Open Scope N_scope.

Definition agree_res {S A} (debug release : res S A) : Prop :=
  debug = release \/ exists w, In w overflow_panics /\ debug = Panic w.
Definition agree {S A} (debug release : M S A) : Prop := forall s, agree_res (debug s) (release s).

Lemma ag_res_refl {S A} (r : res S A) : agree_res r r.
Proof. now left. Qed.
Lemma ag_refl {S A} (m : M S A) : agree m m.
Proof. intro s. now left. Qed.
Lemma ag_bind {S A B} (m m' : M S A) (k k' : A -> M S B) : agree m m' -> (forall a, agree (k a) (k' a)) -> agree (bind m k) (bind m' k').
Proof.
  intros Hm Hk s. unfold bind. destruct (Hm s) as [E|(w & I & E)]; rewrite E.
  - destruct (m' s); try now left. apply Hk.
  - right. eauto.
Qed.
Lemma ag_ovf {S A} (o o' : option A) : o = o' \/ o = None -> agree (S := S) (ovf o) (ovf o').
Proof. intros [->| ->] s; [now left|]. right. eexists. split; [|reflexivity]. cbn. tauto. Qed.
Lemma u_add_cases b x y : u_add Debug b x y = u_add Release b x y \/ u_add Debug b x y = None.
Proof. unfold u_add. destruct (_ <? _); auto. Qed.
Lemma u_mul_cases b x y : u_mul Debug b x y = u_mul Release b x y \/ u_mul Debug b x y = None.
Proof. unfold u_mul. destruct (_ <? _); auto. Qed.
Lemma u_sub_cases b x y : u_sub Debug b x y = u_sub Release b x y \/ u_sub Debug b x y = None.
Proof. unfold u_sub. destruct (_ <=? _); auto. Qed.
Lemma ag_map_err {S A} (m m' : M S A) e : agree m m' -> agree (map_err m e) (map_err m' e).
Proof. intros H s. unfold map_err. destruct (H s) as [E|(w & I & E)]; rewrite E; [now left|right; eauto]. Qed.
Lemma ag_unwrap_result {S A} (m m' : M S A) : agree m m' -> agree (unwrap_result m) (unwrap_result m').
Proof. intros H s. unfold unwrap_result. destruct (H s) as [E|(w & I & E)]; rewrite E; [now left|right; eauto]. Qed.
Lemma ag_try {S A} (m m' : M S A) : agree m m' -> agree (try_m m) (try_m m').
Proof. intros H s. unfold try_m. destruct (H s) as [E|(w & I & E)]; rewrite E; [now left|right; eauto]. Qed.
Lemma ag_lift {S A} (m m' : M unit A) : agree m m' -> agree (S := S) (lift m) (lift m').
Proof. intros H s. unfold lift. destruct (H tt) as [E|(w & I & E)]; rewrite E; [now left|right; eauto]. Qed.
Lemma ag_on_reader {A} r (m m' : M reader A) : agree m m' -> agree (on_reader r m) (on_reader r m').
Proof. intros H s. unfold on_reader. destruct (H r) as [E|(w & I & E)]; rewrite E; [now left|right; eauto]. Qed.
Lemma ag_with_reader {S A} r (m m' : M reader A) : agree m m' -> agree (S := S) (with_reader r m) (with_reader r m').
Proof. intros H s. unfold with_reader. destruct (H r) as [E|(w & I & E)]; rewrite E; [now left|right; eauto]. Qed.
Lemma ag_repeat {S A} (m m' : M S A) n : agree m m' -> agree (repeat_m n m) (repeat_m n m').
Proof.
  intro H. induction n as [|n IH]; cbn [repeat_m]; [apply ag_refl|].
  apply ag_bind; [exact H|intro]. apply ag_bind; [exact IH|intro]. apply ag_refl.
Qed.
Lemma ag_map_m {S A B} (f f' : A -> M S B) l : (forall x, agree (f x) (f' x)) -> agree (map_m f l) (map_m f' l).
Proof.
  intro H. induction l as [|x l IH]; cbn [map_m]; [apply ag_refl|].
  apply ag_bind; [apply H|intro]. apply ag_bind; [exact IH|intro]. apply ag_refl.
Qed.
Lemma ag_iter_m {S A} (f f' : A -> M S unit) l : (forall x, agree (f x) (f' x)) -> agree (iter_m f l) (iter_m f' l).
Proof. intro H. induction l as [|x l IH]; cbn [iter_m]; [apply ag_refl|]. apply ag_bind; [apply H|intro; exact IH]. Qed.
Lemma ag_range_m {S} (f f' : N -> M S unit) : (forall x, agree (f x) (f' x)) -> forall n i, agree (range_m n i f) (range_m n i f').
Proof. intro H. induction n as [|n IH]; intro i; cbn [range_m]; [apply ag_refl|]. apply ag_bind; [apply H|intro; apply IH]. Qed.
Lemma ag_fold_m {S A B} (f f' : A -> B -> M S A) : (forall a x, agree (f a x) (f' a x)) -> forall l a, agree (fold_m f a l) (fold_m f' a l).
Proof. intro H. induction l as [|x l IH]; intro a; cbn [fold_m]; [apply ag_refl|]. apply ag_bind; [apply H|intro; apply IH]. Qed.
Lemma ag_binary {S} what (f f' : ity -> Z -> Z -> M S value) o a b : (forall t x y, agree (f t x y) (f' t x y)) ->
  agree (binary what f o a b) (binary what f' o a b).
Proof. intro H. unfold binary. destruct a, b; try apply ag_refl. destruct (ity_eqb _ _); [apply H|apply ag_refl]. Qed.

Create HintDb ag discriminated.

Ltac ag_step :=
  lazymatch goal with
  | |- agree ?m ?m => apply ag_refl
  | |- agree_res ?m ?m => apply ag_res_refl
  | H : In ?w overflow_panics |- agree_res (Panic ?w) _ => right; eauto
  | |- agree_res (Panic _) _ => solve [right; eexists; split; [|reflexivity]; cbn; tauto]
  | |- agree (panic _) _ => solve [intro; right; eexists; split; [|reflexivity]; cbn; tauto]
  | |- agree (bind _ _) (bind _ _) => apply ag_bind; [|intro]
  | |- agree (ovf (u_add _ _ _ _)) _ => apply ag_ovf, u_add_cases
  | |- agree (ovf (u_mul _ _ _ _)) _ => apply ag_ovf, u_mul_cases
  | |- agree (ovf (u_sub _ _ _ _)) _ => apply ag_ovf, u_sub_cases
  | |- agree (map_err _ _) _ => apply ag_map_err
  | |- agree (unwrap_result _) _ => apply ag_unwrap_result
  | |- agree (try_m _) _ => apply ag_try
  | |- agree (lift _) _ => apply ag_lift
  | |- agree (on_reader _ _) _ => apply ag_on_reader
  | |- agree (with_reader _ _) _ => apply ag_with_reader
  | |- agree (repeat_m _ _) _ => apply ag_repeat
  | |- agree (read_table _ _ _) _ => unfold read_table; apply ag_repeat
  | |- agree (map_m _ _) _ => apply ag_map_m; intro
  | |- agree (iter_m _ _) _ => apply ag_iter_m; intro
  | |- agree (range_m _ _ _) _ => apply ag_range_m; intro
  | |- agree (fold_m _ _ _) _ => apply ag_fold_m; intros
  | |- agree (binary _ _ _ _ _) _ => apply ag_binary; intros
  | |- agree (let x := ?e in _) _ => cbv zeta
  | |- agree (match u_add Debug ?b ?x ?y with _ => _ end) _ => let E := fresh "E" in destruct (u_add_cases b x y) as [E|E]; rewrite E; clear E
  | |- agree (match u_mul Debug ?b ?x ?y with _ => _ end) _ => let E := fresh "E" in destruct (u_mul_cases b x y) as [E|E]; rewrite E; clear E
  | |- agree (match u_sub Debug ?b ?x ?y with _ => _ end) _ => let E := fresh "E" in destruct (u_sub_cases b x y) as [E|E]; rewrite E; clear E
  | |- agree (match ?x with _ => _ end) _ => destruct x
  | |- agree (fun s => _) _ => let s := fresh "s" in intro s; cbv beta
  | |- agree_res (match u_add Debug ?b ?x ?y with _ => _ end) _ => let E := fresh "E" in destruct (u_add_cases b x y) as [E|E]; rewrite E; clear E
  | |- agree_res (match u_mul Debug ?b ?x ?y with _ => _ end) _ => let E := fresh "E" in destruct (u_mul_cases b x y) as [E|E]; rewrite E; clear E
  | |- agree_res (match u_sub Debug ?b ?x ?y with _ => _ end) _ => let E := fresh "E" in destruct (u_sub_cases b x y) as [E|E]; rewrite E; clear E
  | |- agree_res (match ?m ?s with Ok _ _ => _ | _ => _ end) (match ?m' ?s with Ok _ _ => _ | _ => _ end) =>
      let H := fresh "H" in let E := fresh "E" in assert (H : agree m m'); [|destruct (H s) as [E|(? & ? & E)]; rewrite E; clear H E]
  | |- agree_res (match ?x with _ => _ end) _ => destruct x
  | |- agree_res (?m ?s) (?m' ?s) => let H := fresh "H" in assert (H : agree m m'); [|exact (H s)]
  end.
Ltac ag_auto := solve [auto 2 with ag nocore].
Ltac ag := repeat first [ag_auto | ag_step].

(** ** BinaryReader *)

Lemma ag_advance (x : N) : agree (advance Debug x) (advance Release x).
Proof. unfold advance. ag. Qed.
#[export] Hint Resolve ag_advance : ag.
Lemma ag_peek (n : N) : agree (peek Debug n) (peek Release n).
Proof. unfold peek. ag. Qed.
#[export] Hint Resolve ag_peek : ag.
Lemma ag_read (n : N) : agree (read Debug n) (read Release n).
Proof. unfold read. ag. Qed.
#[export] Hint Resolve ag_read : ag.
Lemma ag_peek_array (sz : N) (cnt : N) : agree (peek_array Debug sz cnt) (peek_array Release sz cnt).
Proof. unfold peek_array. ag. Qed.
#[export] Hint Resolve ag_peek_array : ag.
Lemma ag_read_array (sz : N) (cnt : N) : agree (read_array Debug sz cnt) (read_array Release sz cnt).
Proof. unfold read_array. ag. Qed.
#[export] Hint Resolve ag_read_array : ag.
Lemma ag_read_str (length : N) : agree (read_str Debug length) (read_str Release length).
Proof. unfold read_str. ag. Qed.
#[export] Hint Resolve ag_read_str : ag.
Lemma ag_read_c_str  : agree (read_c_str Debug) (read_c_str Release).
Proof. unfold read_c_str. ag. Qed.
#[export] Hint Resolve ag_read_c_str : ag.
Lemma ag_rd (n : N) (e : string) : agree (rd Debug n e) (rd Release n e).
Proof. unfold rd. ag. Qed.
#[export] Hint Resolve ag_rd : ag.
Lemma ag_pk (n : N) (e : string) : agree (pk Debug n e) (pk Release n e).
Proof. unfold pk. ag. Qed.
#[export] Hint Resolve ag_pk : ag.

(** ** Pe *)

Lemma ag_parse_pe_m  : agree (parse_pe_m Debug) (parse_pe_m Release).
Proof. unfold parse_pe_m. ag. Qed.
#[export] Hint Resolve ag_parse_pe_m : ag.
Lemma ag_parse_pe (data : list byte) : agree_res (parse_pe Debug data) (parse_pe Release data).
Proof. unfold parse_pe. ag. Qed.
#[export] Hint Resolve ag_parse_pe : ag.
Lemma ag_resolve_rva_ {S} (rva : N) (secs : list pe_section) : agree (@resolve_rva_ S Debug rva secs) (@resolve_rva_ S Release rva secs).
Proof. induction secs as [|x l IH]; cbn [resolve_rva_]; ag. Qed.
#[export] Hint Resolve ag_resolve_rva_ : ag.
Lemma ag_resolve_rva {S} (pi : pe_info) (rva : N) : agree (@resolve_rva S Debug pi rva) (@resolve_rva S Release pi rva).
Proof. unfold resolve_rva. ag. Qed.
#[export] Hint Resolve ag_resolve_rva : ag.

(** ** Tables *)

Lemma ag_read_index (wide : bool) : agree (read_index Debug wide) (read_index Release wide).
Proof. unfold read_index. ag. Qed.
#[export] Hint Resolve ag_read_index : ag.
Lemma ag_read_type_def_handle (E : tenv) : agree (read_type_def_handle Debug E) (read_type_def_handle Release E).
Proof. unfold read_type_def_handle. ag. Qed.
#[export] Hint Resolve ag_read_type_def_handle : ag.
Lemma ag_read_field_handle (E : tenv) : agree (read_field_handle Debug E) (read_field_handle Release E).
Proof. unfold read_field_handle. ag. Qed.
#[export] Hint Resolve ag_read_field_handle : ag.
Lemma ag_read_method_def_handle (E : tenv) : agree (read_method_def_handle Debug E) (read_method_def_handle Release E).
Proof. unfold read_method_def_handle. ag. Qed.
#[export] Hint Resolve ag_read_method_def_handle : ag.
Lemma ag_read_param_handle (E : tenv) : agree (read_param_handle Debug E) (read_param_handle Release E).
Proof. unfold read_param_handle. ag. Qed.
#[export] Hint Resolve ag_read_param_handle : ag.
Lemma ag_read_event_handle (E : tenv) : agree (read_event_handle Debug E) (read_event_handle Release E).
Proof. unfold read_event_handle. ag. Qed.
#[export] Hint Resolve ag_read_event_handle : ag.
Lemma ag_read_property_handle (E : tenv) : agree (read_property_handle Debug E) (read_property_handle Release E).
Proof. unfold read_property_handle. ag. Qed.
#[export] Hint Resolve ag_read_property_handle : ag.
Lemma ag_read_module_ref_handle (E : tenv) : agree (read_module_ref_handle Debug E) (read_module_ref_handle Release E).
Proof. unfold read_module_ref_handle. ag. Qed.
#[export] Hint Resolve ag_read_module_ref_handle : ag.
Lemma ag_read_assembly_ref_handle (E : tenv) : agree (read_assembly_ref_handle Debug E) (read_assembly_ref_handle Release E).
Proof. unfold read_assembly_ref_handle. ag. Qed.
#[export] Hint Resolve ag_read_assembly_ref_handle : ag.
Lemma ag_read_generic_param_handle (E : tenv) : agree (read_generic_param_handle Debug E) (read_generic_param_handle Release E).
Proof. unfold read_generic_param_handle. ag. Qed.
#[export] Hint Resolve ag_read_generic_param_handle : ag.
Lemma ag_read_string_handle (E : tenv) : agree (read_string_handle Debug E) (read_string_handle Release E).
Proof. unfold read_string_handle. ag. Qed.
#[export] Hint Resolve ag_read_string_handle : ag.
Lemma ag_read_guid_handle (E : tenv) : agree (read_guid_handle Debug E) (read_guid_handle Release E).
Proof. unfold read_guid_handle. ag. Qed.
#[export] Hint Resolve ag_read_guid_handle : ag.
Lemma ag_read_blob_handle (E : tenv) : agree (read_blob_handle Debug E) (read_blob_handle Release E).
Proof. unfold read_blob_handle. ag. Qed.
#[export] Hint Resolve ag_read_blob_handle : ag.
Lemma ag_read_coded (wide : bool) (mask : N) (tag_table : N -> option table) (e : string) : agree (read_coded Debug wide mask tag_table e) (read_coded Release wide mask tag_table e).
Proof. unfold read_coded. ag. Qed.
#[export] Hint Resolve ag_read_coded : ag.
Lemma ag_read_type_def_or_ref_handle (E : tenv) : agree (read_type_def_or_ref_handle Debug E) (read_type_def_or_ref_handle Release E).
Proof. unfold read_type_def_or_ref_handle. ag. Qed.
#[export] Hint Resolve ag_read_type_def_or_ref_handle : ag.
Lemma ag_read_has_constant_handle (E : tenv) : agree (read_has_constant_handle Debug E) (read_has_constant_handle Release E).
Proof. unfold read_has_constant_handle. ag. Qed.
#[export] Hint Resolve ag_read_has_constant_handle : ag.
Lemma ag_read_has_custom_attribute_handle (E : tenv) : agree (read_has_custom_attribute_handle Debug E) (read_has_custom_attribute_handle Release E).
Proof. unfold read_has_custom_attribute_handle. ag. Qed.
#[export] Hint Resolve ag_read_has_custom_attribute_handle : ag.
Lemma ag_read_has_field_marshal_handle (E : tenv) : agree (read_has_field_marshal_handle Debug E) (read_has_field_marshal_handle Release E).
Proof. unfold read_has_field_marshal_handle. ag. Qed.
#[export] Hint Resolve ag_read_has_field_marshal_handle : ag.
Lemma ag_read_has_decl_security_handle (E : tenv) : agree (read_has_decl_security_handle Debug E) (read_has_decl_security_handle Release E).
Proof. unfold read_has_decl_security_handle. ag. Qed.
#[export] Hint Resolve ag_read_has_decl_security_handle : ag.
Lemma ag_read_member_ref_parent_handle (E : tenv) : agree (read_member_ref_parent_handle Debug E) (read_member_ref_parent_handle Release E).
Proof. unfold read_member_ref_parent_handle. ag. Qed.
#[export] Hint Resolve ag_read_member_ref_parent_handle : ag.
Lemma ag_read_has_semantics_handle (E : tenv) : agree (read_has_semantics_handle Debug E) (read_has_semantics_handle Release E).
Proof. unfold read_has_semantics_handle. ag. Qed.
#[export] Hint Resolve ag_read_has_semantics_handle : ag.
Lemma ag_read_method_def_or_ref_handle (E : tenv) : agree (read_method_def_or_ref_handle Debug E) (read_method_def_or_ref_handle Release E).
Proof. unfold read_method_def_or_ref_handle. ag. Qed.
#[export] Hint Resolve ag_read_method_def_or_ref_handle : ag.
Lemma ag_read_member_forwarded_handle (E : tenv) : agree (read_member_forwarded_handle Debug E) (read_member_forwarded_handle Release E).
Proof. unfold read_member_forwarded_handle. ag. Qed.
#[export] Hint Resolve ag_read_member_forwarded_handle : ag.
Lemma ag_read_implementation_handle (E : tenv) : agree (read_implementation_handle Debug E) (read_implementation_handle Release E).
Proof. unfold read_implementation_handle. ag. Qed.
#[export] Hint Resolve ag_read_implementation_handle : ag.
Lemma ag_read_custom_attribute_type_handle (E : tenv) : agree (read_custom_attribute_type_handle Debug E) (read_custom_attribute_type_handle Release E).
Proof. unfold read_custom_attribute_type_handle. ag. Qed.
#[export] Hint Resolve ag_read_custom_attribute_type_handle : ag.
Lemma ag_read_resolution_scope_handle (E : tenv) : agree (read_resolution_scope_handle Debug E) (read_resolution_scope_handle Release E).
Proof. unfold read_resolution_scope_handle. ag. Qed.
#[export] Hint Resolve ag_read_resolution_scope_handle : ag.
Lemma ag_read_type_or_method_def_handle (E : tenv) : agree (read_type_or_method_def_handle Debug E) (read_type_or_method_def_handle Release E).
Proof. unfold read_type_or_method_def_handle. ag. Qed.
#[export] Hint Resolve ag_read_type_or_method_def_handle : ag.
Lemma ag_read_module (E : tenv) : agree (read_module Debug E) (read_module Release E).
Proof. unfold read_module. ag. Qed.
#[export] Hint Resolve ag_read_module : ag.
Lemma ag_read_type_ref (E : tenv) : agree (read_type_ref Debug E) (read_type_ref Release E).
Proof. unfold read_type_ref. ag. Qed.
#[export] Hint Resolve ag_read_type_ref : ag.
Lemma ag_read_type_def (E : tenv) : agree (read_type_def Debug E) (read_type_def Release E).
Proof. unfold read_type_def. ag. Qed.
#[export] Hint Resolve ag_read_type_def : ag.
Lemma ag_read_field (E : tenv) : agree (read_field Debug E) (read_field Release E).
Proof. unfold read_field. ag. Qed.
#[export] Hint Resolve ag_read_field : ag.
Lemma ag_read_method_def (E : tenv) : agree (read_method_def Debug E) (read_method_def Release E).
Proof. unfold read_method_def. ag. Qed.
#[export] Hint Resolve ag_read_method_def : ag.
Lemma ag_read_param (E : tenv) : agree (read_param Debug E) (read_param Release E).
Proof. unfold read_param. ag. Qed.
#[export] Hint Resolve ag_read_param : ag.
Lemma ag_read_interface_impl (E : tenv) : agree (read_interface_impl Debug E) (read_interface_impl Release E).
Proof. unfold read_interface_impl. ag. Qed.
#[export] Hint Resolve ag_read_interface_impl : ag.
Lemma ag_read_member_ref (E : tenv) : agree (read_member_ref Debug E) (read_member_ref Release E).
Proof. unfold read_member_ref. ag. Qed.
#[export] Hint Resolve ag_read_member_ref : ag.
Lemma ag_read_constant (E : tenv) : agree (read_constant Debug E) (read_constant Release E).
Proof. unfold read_constant. ag. Qed.
#[export] Hint Resolve ag_read_constant : ag.
Lemma ag_read_custom_attribute (E : tenv) : agree (read_custom_attribute Debug E) (read_custom_attribute Release E).
Proof. unfold read_custom_attribute. ag. Qed.
#[export] Hint Resolve ag_read_custom_attribute : ag.
Lemma ag_read_field_marshal (E : tenv) : agree (read_field_marshal Debug E) (read_field_marshal Release E).
Proof. unfold read_field_marshal. ag. Qed.
#[export] Hint Resolve ag_read_field_marshal : ag.
Lemma ag_read_decl_security (E : tenv) : agree (read_decl_security Debug E) (read_decl_security Release E).
Proof. unfold read_decl_security. ag. Qed.
#[export] Hint Resolve ag_read_decl_security : ag.
Lemma ag_read_class_layout (E : tenv) : agree (read_class_layout Debug E) (read_class_layout Release E).
Proof. unfold read_class_layout. ag. Qed.
#[export] Hint Resolve ag_read_class_layout : ag.
Lemma ag_read_field_layout (E : tenv) : agree (read_field_layout Debug E) (read_field_layout Release E).
Proof. unfold read_field_layout. ag. Qed.
#[export] Hint Resolve ag_read_field_layout : ag.
Lemma ag_read_standalone_sig (E : tenv) : agree (read_standalone_sig Debug E) (read_standalone_sig Release E).
Proof. unfold read_standalone_sig. ag. Qed.
#[export] Hint Resolve ag_read_standalone_sig : ag.
Lemma ag_read_event_map (E : tenv) : agree (read_event_map Debug E) (read_event_map Release E).
Proof. unfold read_event_map. ag. Qed.
#[export] Hint Resolve ag_read_event_map : ag.
Lemma ag_read_event (E : tenv) : agree (read_event Debug E) (read_event Release E).
Proof. unfold read_event. ag. Qed.
#[export] Hint Resolve ag_read_event : ag.
Lemma ag_read_property_map (E : tenv) : agree (read_property_map Debug E) (read_property_map Release E).
Proof. unfold read_property_map. ag. Qed.
#[export] Hint Resolve ag_read_property_map : ag.
Lemma ag_read_property (E : tenv) : agree (read_property Debug E) (read_property Release E).
Proof. unfold read_property. ag. Qed.
#[export] Hint Resolve ag_read_property : ag.
Lemma ag_read_method_semantics (E : tenv) : agree (read_method_semantics Debug E) (read_method_semantics Release E).
Proof. unfold read_method_semantics. ag. Qed.
#[export] Hint Resolve ag_read_method_semantics : ag.
Lemma ag_read_method_impl (E : tenv) : agree (read_method_impl Debug E) (read_method_impl Release E).
Proof. unfold read_method_impl. ag. Qed.
#[export] Hint Resolve ag_read_method_impl : ag.
Lemma ag_read_module_ref (E : tenv) : agree (read_module_ref Debug E) (read_module_ref Release E).
Proof. unfold read_module_ref. ag. Qed.
#[export] Hint Resolve ag_read_module_ref : ag.
Lemma ag_read_type_spec (E : tenv) : agree (read_type_spec Debug E) (read_type_spec Release E).
Proof. unfold read_type_spec. ag. Qed.
#[export] Hint Resolve ag_read_type_spec : ag.
Lemma ag_read_impl_map (E : tenv) : agree (read_impl_map Debug E) (read_impl_map Release E).
Proof. unfold read_impl_map. ag. Qed.
#[export] Hint Resolve ag_read_impl_map : ag.
Lemma ag_read_field_rva (E : tenv) : agree (read_field_rva Debug E) (read_field_rva Release E).
Proof. unfold read_field_rva. ag. Qed.
#[export] Hint Resolve ag_read_field_rva : ag.
Lemma ag_read_assembly (E : tenv) : agree (read_assembly Debug E) (read_assembly Release E).
Proof. unfold read_assembly. ag. Qed.
#[export] Hint Resolve ag_read_assembly : ag.
Lemma ag_read_assembly_processor (E : tenv) : agree (read_assembly_processor Debug E) (read_assembly_processor Release E).
Proof. unfold read_assembly_processor. ag. Qed.
#[export] Hint Resolve ag_read_assembly_processor : ag.
Lemma ag_read_assembly_os (E : tenv) : agree (read_assembly_os Debug E) (read_assembly_os Release E).
Proof. unfold read_assembly_os. ag. Qed.
#[export] Hint Resolve ag_read_assembly_os : ag.
Lemma ag_read_assembly_ref (E : tenv) : agree (read_assembly_ref Debug E) (read_assembly_ref Release E).
Proof. unfold read_assembly_ref. ag. Qed.
#[export] Hint Resolve ag_read_assembly_ref : ag.
Lemma ag_read_assembly_ref_processor (E : tenv) : agree (read_assembly_ref_processor Debug E) (read_assembly_ref_processor Release E).
Proof. unfold read_assembly_ref_processor. ag. Qed.
#[export] Hint Resolve ag_read_assembly_ref_processor : ag.
Lemma ag_read_assembly_ref_os (E : tenv) : agree (read_assembly_ref_os Debug E) (read_assembly_ref_os Release E).
Proof. unfold read_assembly_ref_os. ag. Qed.
#[export] Hint Resolve ag_read_assembly_ref_os : ag.
Lemma ag_read_file (E : tenv) : agree (read_file Debug E) (read_file Release E).
Proof. unfold read_file. ag. Qed.
#[export] Hint Resolve ag_read_file : ag.
Lemma ag_read_exported_type (E : tenv) : agree (read_exported_type Debug E) (read_exported_type Release E).
Proof. unfold read_exported_type. ag. Qed.
#[export] Hint Resolve ag_read_exported_type : ag.
Lemma ag_read_manifest_resource (E : tenv) : agree (read_manifest_resource Debug E) (read_manifest_resource Release E).
Proof. unfold read_manifest_resource. ag. Qed.
#[export] Hint Resolve ag_read_manifest_resource : ag.
Lemma ag_read_nested_class (E : tenv) : agree (read_nested_class Debug E) (read_nested_class Release E).
Proof. unfold read_nested_class. ag. Qed.
#[export] Hint Resolve ag_read_nested_class : ag.
Lemma ag_read_generic_param (E : tenv) : agree (read_generic_param Debug E) (read_generic_param Release E).
Proof. unfold read_generic_param. ag. Qed.
#[export] Hint Resolve ag_read_generic_param : ag.
Lemma ag_read_method_spec (E : tenv) : agree (read_method_spec Debug E) (read_method_spec Release E).
Proof. unfold read_method_spec. ag. Qed.
#[export] Hint Resolve ag_read_method_spec : ag.
Lemma ag_read_generic_param_constraint (E : tenv) : agree (read_generic_param_constraint Debug E) (read_generic_param_constraint Release E).
Proof. unfold read_generic_param_constraint. ag. Qed.
#[export] Hint Resolve ag_read_generic_param_constraint : ag.
Lemma ag_read_tables (E : tenv) : agree (read_tables Debug E) (read_tables Release E).
Proof. unfold read_tables. ag. Qed.
#[export] Hint Resolve ag_read_tables : ag.
Lemma ag_read_table_stream  : agree (read_table_stream Debug) (read_table_stream Release).
Proof. unfold read_table_stream. ag. Qed.
#[export] Hint Resolve ag_read_table_stream : ag.
Lemma ag_table_index {A} (rows : list A) (h : N) : agree_res (@table_index A Debug rows h) (@table_index A Release rows h).
Proof. unfold table_index. ag. Qed.
#[export] Hint Resolve ag_table_index : ag.

(** ** Blob *)

Lemma ag_rd_be (n : N) (e : string) : agree (rd_be Debug n e) (rd_be Release n e).
Proof. unfold rd_be. ag. Qed.
#[export] Hint Resolve ag_rd_be : ag.
Lemma ag_read_compressed_u32  : agree (read_compressed_u32 Debug) (read_compressed_u32 Release).
Proof. unfold read_compressed_u32. ag. Qed.
#[export] Hint Resolve ag_read_compressed_u32 : ag.
Lemma ag_read_utf16_str  : agree (read_utf16_str Debug) (read_utf16_str Release).
Proof. unfold read_utf16_str. ag. Qed.
#[export] Hint Resolve ag_read_utf16_str : ag.
Lemma ag_blob_reader_new (data : list byte) : agree_res (blob_reader_new Debug data) (blob_reader_new Release data).
Proof. unfold blob_reader_new. ag. Qed.
#[export] Hint Resolve ag_blob_reader_new : ag.
Lemma ag_blob_heap_reader (heap : list byte) (h : N) : agree_res (blob_heap_reader Debug heap h) (blob_heap_reader Release heap h).
Proof. unfold blob_heap_reader. ag. Qed.
#[export] Hint Resolve ag_blob_heap_reader : ag.
Lemma ag_read_array_shape  : agree (read_array_shape Debug) (read_array_shape Release).
Proof. unfold read_array_shape. ag. Qed.
#[export] Hint Resolve ag_read_array_shape : ag.
Lemma ag_read_type_def_or_ref  : agree (read_type_def_or_ref Debug) (read_type_def_or_ref Release).
Proof. unfold read_type_def_or_ref. ag. Qed.
#[export] Hint Resolve ag_read_type_def_or_ref : ag.
Lemma ag_element_type_f (fuel : nat) : agree (element_type_f fuel Debug) (element_type_f fuel Release).
Proof. induction fuel as [|fuel IH]; cbn [element_type_f]; ag. Qed.
#[export] Hint Resolve ag_element_type_f : ag.
Lemma ag_read_element_type  : agree (read_element_type Debug) (read_element_type Release).
Proof. unfold read_element_type. ag. Qed.
#[export] Hint Resolve ag_read_element_type : ag.
Lemma ag_read_field_signature  : agree (read_field_signature Debug) (read_field_signature Release).
Proof. unfold read_field_signature. ag. Qed.
#[export] Hint Resolve ag_read_field_signature : ag.
Lemma ag_read_method_signature  : agree (read_method_signature Debug) (read_method_signature Release).
Proof. unfold read_method_signature. ag. Qed.
#[export] Hint Resolve ag_read_method_signature : ag.
Lemma ag_read_property_signature  : agree (read_property_signature Debug) (read_property_signature Release).
Proof. unfold read_property_signature. ag. Qed.
#[export] Hint Resolve ag_read_property_signature : ag.
Lemma ag_read_method_spec_sig  : agree (read_method_spec_sig Debug) (read_method_spec_sig Release).
Proof. unfold read_method_spec_sig. ag. Qed.
#[export] Hint Resolve ag_read_method_spec_sig : ag.
Lemma ag_read_type_spec_sig  : agree (read_type_spec_sig Debug) (read_type_spec_sig Release).
Proof. unfold read_type_spec_sig. ag. Qed.
#[export] Hint Resolve ag_read_type_spec_sig : ag.
Lemma ag_read_marshal_scalar  : agree (read_marshal_scalar Debug) (read_marshal_scalar Release).
Proof. unfold read_marshal_scalar. ag. Qed.
#[export] Hint Resolve ag_read_marshal_scalar : ag.
Lemma ag_read_marshal_descriptor  : agree (read_marshal_descriptor Debug) (read_marshal_descriptor Release).
Proof. unfold read_marshal_descriptor. ag. Qed.
#[export] Hint Resolve ag_read_marshal_descriptor : ag.

(** ** Metadata *)

Lemma ag_read_stream_headers (n : nat) (s : stream_headers) : agree (read_stream_headers Debug n s) (read_stream_headers Release n s).
Proof. revert s. induction n as [|n IH]; intro s; cbn [read_stream_headers]; ag. Qed.
#[export] Hint Resolve ag_read_stream_headers : ag.
Lemma ag_read_root  : agree (read_root Debug) (read_root Release).
Proof. unfold read_root. ag. Qed.
#[export] Hint Resolve ag_read_root : ag.
Lemma ag_stream_slice (md : list byte) (h : stream_header) : agree (stream_slice Debug md h) (stream_slice Release md h).
Proof. unfold stream_slice. ag. Qed.
#[export] Hint Resolve ag_stream_slice : ag.
Lemma ag_read_metadata (data : list byte) : agree (read_metadata Debug data) (read_metadata Release data).
Proof. unfold read_metadata. ag. Qed.
#[export] Hint Resolve ag_read_metadata : ag.
Lemma ag_get_pe_data (m : metadata) (rs : rva_and_size) : agree (get_pe_data Debug m rs) (get_pe_data Release m rs).
Proof. unfold get_pe_data. ag. Qed.
#[export] Hint Resolve ag_get_pe_data : ag.
Lemma ag_get_resource_data (m : metadata) (offset : N) : agree (get_resource_data Debug m offset) (get_resource_data Release m offset).
Proof. unfold get_resource_data. ag. Qed.
#[export] Hint Resolve ag_get_resource_data : ag.


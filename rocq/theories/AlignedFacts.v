(** Lemmas about reading at addresses. *)
From Coq Require Import NArith String List Bool Lia.
From Coq.Strings Require Import Byte.
From Verif Require Import Base BinaryReader ParseSpec BaseFacts ReaderFacts Attributes Tables SpecTables TablesApi TablesProofs.
From Verif Require Import Aligned SpecImageAlign.
Import ListNotations.
Open Scope N_scope.

Fixpoint suits_b (address : N) (parts : list (N * N)) : bool :=
  match parts with
  | [] => true
  | (size, alignment) :: parts' => (address mod alignment =? 0) && suits_b (address + size) parts'
  end.
Definition total_size (parts : list (N * N)) : N := fold_right N.add 0 (map fst parts).

Lemma suits_b_spec parts : forall a, suits_b a parts = true <-> suits a parts.
Proof.
  induction parts as [|[s al] l IH]; intro a; cbn [suits_b suits]; [tauto|].
  rewrite andb_true_iff, IH, N.eqb_eq. tauto.
Qed.
Lemma total_size_app l1 l2 : total_size (l1 ++ l2) = total_size l1 + total_size l2.
Proof. unfold total_size. induction l1 as [|[s a] l IH]; [reflexivity|]. cbn [app map fold_right fst]. rewrite IH. lia. Qed.
Lemma suits_b_app l1 : forall a l2, suits_b a (l1 ++ l2) = suits_b a l1 && suits_b (a + total_size l1) l2.
Proof.
  induction l1 as [|[s al] l IH]; intros a l2; cbn [app suits_b].
  - unfold total_size. cbn [map fold_right]. now rewrite N.add_0_r.
  - rewrite IH. rewrite andb_assoc. f_equal. f_equal. unfold total_size. cbn [map fold_right fst]. lia.
Qed.

(** [m' base] behaves like [m] where the parts that it reads are aligned, and is undefined elsewhere. *)
Definition reads {A} (m' : N -> M reader A) (m : M reader A) (parts : list (N * N)) : Prop :=
  forall base r x r', slice_ok (rdata r) -> rpos r + total_size parts < 2 ^ 64 -> m r = Ok x r' ->
    rdata r' = rdata r /\ rpos r' = rpos r + total_size parts /\
    m' base r = (if suits_b (base + rpos r) parts then Ok x r' else Ub misaligned).

Lemma reads_bind {A B} m' m (k' : N -> A -> M reader B) k l1 l2 :
  reads m' m l1 -> (forall a, reads (fun base => k' base a) (k a) l2) ->
  reads (fun base => bind (m' base) (k' base)) (bind m k) (l1 ++ l2).
Proof.
  intros H1 H2 base r y r' Hs Hb E. rewrite total_size_app in *. apply bind_inv_ok in E as (a & r1 & E1 & E2).
  destruct (H1 base r a r1 Hs ltac:(lia) E1) as (D1 & P1 & R1).
  destruct (H2 a base r1 y r') as (D2 & P2 & R2); [now rewrite D1|rewrite P1; lia|exact E2|].
  split; [congruence|]. split; [lia|]. rewrite suits_b_app. unfold bind. rewrite R1.
  destruct (suits_b (base + rpos r) l1); cbn [andb]; [|reflexivity]. rewrite R2, P1. now rewrite !N.add_assoc.
Qed.
Lemma reads_bind_ret {A B} m' m (f : A -> B) l : reads m' m l ->
  reads (fun base => bind (m' base) (fun a => ret (f a))) (bind m (fun a => ret (f a))) l.
Proof.
  intros H. rewrite <- (app_nil_r l). apply reads_bind with (k' := fun _ a => ret (f a)); [exact H|].
  intros a base r x r' _ _ E. injection E as <- <-. cbn [suits_b]. split; [reflexivity|]. split; [unfold total_size; cbn; lia|reflexivity].
Qed.
Lemma reads_ret {A} (a : A) : reads (fun _ => ret a) (ret a) [].
Proof. intros base r x r' _ _ E. injection E as <- <-. split; [reflexivity|]. split; [unfold total_size; cbn; lia|reflexivity]. Qed.
Lemma reads_ok_or {A} (o : option A) e : reads (fun _ => ok_or o e) (ok_or o e) [].
Proof.
  intros base r x r' _ _ E. destruct o; [|discriminate E]. injection E as <- <-.
  split; [reflexivity|]. split; [unfold total_size; cbn; lia|reflexivity].
Qed.
Lemma reads_repeat {A} m' (m : M reader A) l n : reads m' m l ->
  reads (fun base => repeat_m n (m' base)) (repeat_m n m) (concat (repeat l n)).
Proof.
  intro H. induction n as [|n IH]; cbn [repeat_m repeat concat]; [apply reads_ret|].
  apply reads_bind with (k' := fun base x => xs <- repeat_m n (m' base) ;; ret (x :: xs)); [exact H|intro x].
  apply reads_bind_ret with (f := fun xs => x :: xs). exact IH.
Qed.
Lemma suits_b_one a s al : suits_b a [(s, al)] = (a mod al =? 0).
Proof. cbn [suits_b]. apply andb_true_r. Qed.

(** ** Single reads *)

Lemma read_inv p n r d r' : slice_ok (rdata r) -> rpos r + n < 2 ^ 64 -> read p n r = Ok (Some d) r' ->
  rpos r + n <= len (rdata r) /\ r' = mkReader (rdata r) (rpos r + n) /\ d = sub_list (rpos r) n (rdata r).
Proof.
  intros Hs Hb E. destruct (N.le_gt_cases (rpos r + n) (len (rdata r))) as [L|L].
  - rewrite read_ok in E by assumption. injection E; intros; subst. auto.
  - rewrite read_none in E by assumption. discriminate E.
Qed.
Lemma reads_rd p n e : reads (fun base => rd_at base p n e) (rd p n e) [number n].
Proof.
  intros base r x r' Hs Hb E. unfold total_size in *. cbn [map fst number fold_right] in *. rewrite N.add_0_r in *.
  unfold rd in E. apply bind_inv_ok in E as ([d|] & r1 & E1 & E2); [|discriminate E2].
  pose proof (read_inv _ _ _ _ _ Hs Hb E1) as (_ & R & _). injection E2 as <- <-. subst r1. cbn [rdata rpos].
  split; [reflexivity|]. split; [reflexivity|]. unfold number. rewrite suits_b_one.
  unfold rd_at, read_at, typed, bind. rewrite E1. now destruct (_ =? 0).
Qed.
Lemma reads_index p w : reads (fun base => read_index_at base p w) (read_index p w) [number (if w then 4 else 2)].
Proof. unfold read_index_at, read_index. destruct w; apply reads_rd. Qed.
Lemma reads_coded p w mask f e : reads (fun base => read_coded_at base p w mask f e) (read_coded p w mask f e) [number (if w then 4 else 2)].
Proof.
  unfold read_coded_at, read_coded. rewrite <- (app_nil_r [_]).
  apply reads_bind with (k' := fun _ data => match f (N.land data mask) with Some t => ret (mkRef t (N.shiftr (N.ldiff data mask) (popcount5 mask))) | None => fail e end); [apply reads_index|].
  intros a base r x r' _ _ E. cbv zeta in E. destruct (f _); [|discriminate E]. injection E as <- <-.
  split; [reflexivity|]. split; [unfold total_size; cbn; lia|reflexivity].
Qed.
Lemma reads_advance p n : reads (fun _ => advance p n) (advance p n) [(n, 1)].
Proof.
  intros base r x r' Hs Hb E. unfold total_size in *. cbn [map fst fold_right] in *. rewrite N.add_0_r in *.
  rewrite advance_ok in * by exact Hb. injection E as <- <-. split; [reflexivity|]. split; [reflexivity|].
  rewrite suits_b_one, N.mod_1_r. reflexivity.
Qed.
Lemma reads_array p a sz cnt e : cnt * sz < 2 ^ 64 ->
  reads (fun base => o <- read_array_at a base p sz cnt ;; ok_or o e) (o <- read_array p sz cnt ;; ok_or o e) [(cnt * sz, a)].
Proof.
  intros Hm base r x r' Hs Hb E. unfold total_size in *. cbn [map fst fold_right] in *. rewrite N.add_0_r in *.
  apply bind_inv_ok in E as ([d|] & r1 & E1 & E2); [|discriminate E2].
  assert (R : r1 = mkReader (rdata r) (rpos r + cnt * sz)).
  { destruct (N.le_gt_cases (rpos r + cnt * sz) (len (rdata r))) as [L|L].
    - rewrite read_array_ok in E1 by assumption. now injection E1.
    - rewrite read_array_none in E1 by assumption. discriminate E1. }
  injection E2 as <- <-. subst r1. split; [reflexivity|]. split; [reflexivity|]. rewrite suits_b_one.
  unfold read_array_at, typed, bind. rewrite E1. now destruct (_ =? 0).
Qed.

(** ** Rows *)

Ltac reads_step :=
  lazymatch goal with
  | |- reads _ (bind _ _) _ => eapply reads_bind; [|intro]
  | |- reads _ (ret _) _ => apply reads_ret
  | |- reads _ (ok_or _ _) _ => apply reads_ok_or
  | |- reads _ (attr _) _ => apply reads_ok_or
  | |- reads _ (rd _ _ _) _ => apply reads_rd
  | |- reads _ (advance _ _) _ => apply reads_advance
  | |- reads _ (read_coded _ _ _ _ _) _ => apply reads_coded
  | |- reads _ (read_index _ _) _ => apply reads_index
  end.

(** The widths by which the reader goes. *)
Definition index_size (w : bool) : N := if w then 4 else 2.
Definition env_widths (E : tenv) (t : table) : list N :=
  let s := index_size (wide_string E) in let g := index_size (wide_guid E) in let b := index_size (wide_blob E) in
  let i := fun u => index_size (at_table false (wide_table_handles E) u) in
  let c := fun k => index_size (kind_wide k E) in
  match t with
  | TModule => [2; s; g; g; g]
  | TTypeRef => [c KResolutionScope; s; s]
  | TTypeDef => [4; s; s; c KTypeDefOrRef; i TField; i TMethodDef]
  | TField => [2; s; b]
  | TMethodDef => [4; 2; 2; s; b; i TParam]
  | TParam => [2; 2; s]
  | TInterfaceImpl => [i TTypeDef; c KTypeDefOrRef]
  | TMemberRef => [c KMemberRefParent; s; b]
  | TConstant => [1; 1; c KHasConstant; b]
  | TCustomAttribute => [c KHasCustomAttribute; c KCustomAttributeType; b]
  | TFieldMarshal => [c KHasFieldMarshal; b]
  | TDeclSecurity => [2; c KHasDeclSecurity; b]
  | TClassLayout => [2; 4; i TTypeDef]
  | TFieldLayout => [4; i TField]
  | TStandaloneSig => [b]
  | TEventMap => [i TTypeDef; i TEvent]
  | TEvent => [2; s; c KTypeDefOrRef]
  | TPropertyMap => [i TTypeDef; i TProperty]
  | TProperty => [2; s; b]
  | TMethodSemantics => [2; i TMethodDef; c KHasSemantics]
  | TMethodImpl => [i TTypeDef; c KMethodDefOrRef; c KMethodDefOrRef]
  | TModuleRef => [s]
  | TTypeSpec => [b]
  | TImplMap => [2; c KMemberForwarded; s; i TModuleRef]
  | TFieldRva => [4; i TField]
  | TAssembly => [4; 2; 2; 2; 2; 4; b; s; s]
  | TAssemblyProcessor => [4]
  | TAssemblyOs => [4; 4; 4]
  | TAssemblyRef => [2; 2; 2; 2; 4; b; s; s; b]
  | TAssemblyRefProcessor => [4; i TAssemblyRef]
  | TAssemblyRefOs => [4; 4; 4; i TAssemblyRef]
  | TFile => [4; s; b]
  | TExportedType => [4; 4; s; s; c KImplementation]
  | TManifestResource => [4; 4; s; c KImplementation]
  | TNestedClass => [i TTypeDef; i TTypeDef]
  | TGenericParam => [2; 2; c KTypeOrMethodDef; s]
  | TMethodSpec => [c KMethodDefOrRef; b]
  | TGenericParamConstraint => [i TGenericParam; c KTypeDefOrRef]
  end.

Lemma reads_eq {A} m' (m : M reader A) l l' : reads m' m l -> l = l' -> reads m' m l'.
Proof. now intros H <-. Qed.
Lemma reads_module p E : reads (fun base => read_module_at base p E) (read_module p E) (map number (env_widths E TModule)).
Proof.
  assert (K : reads (fun base => name <- read_string_handle_at base p E ;; version <- read_guid_handle_at base p E ;;
      read_guid_handle_at base p E ;;; read_guid_handle_at base p E ;;; ret {| md_name := name; md_version := version |})
    (name <- read_string_handle p E ;; version <- read_guid_handle p E ;;
      read_guid_handle p E ;;; read_guid_handle p E ;;; ret {| md_name := name; md_version := version |})
    (map number (tl (env_widths E TModule)))).
  { eapply reads_eq; [unfold read_string_handle, read_guid_handle, read_string_handle_at, read_guid_handle_at; repeat reads_step|reflexivity]. }
  intros base r x r' Hs Hb E0. unfold read_module in E0. apply bind_inv_ok in E0 as (o & r1 & E1 & E2).
  change (map number (env_widths E TModule)) with ([number 2] ++ map number (tl (env_widths E TModule))) in *.
  rewrite total_size_app, suits_b_app in *. change (total_size [number 2]) with 2 in *.
  destruct (N.le_gt_cases (rpos r + 2) (len (rdata r))) as [L|L].
  - pose proof E1 as E1'. rewrite read_ok in E1 by assumption. injection E1 as <- <-.
    destruct (K base (mkReader (rdata r) (rpos r + 2)) x r' Hs ltac:(cbn [rpos]; lia) E2) as (D & P & R). cbn [rdata rpos] in *.
    split; [exact D|]. split; [lia|]. unfold read_module_at. unfold bind at 1. unfold read_at, typed. rewrite E1'.
    unfold number. rewrite suits_b_one. destruct (_ =? 0); cbn [andb]; [|reflexivity]. rewrite R, N.add_assoc. reflexivity.
  - exfalso. rewrite read_none in E1 by lia. injection E1 as <- <-.
    apply bind_inv_ok in E2 as (n & r2 & E2 & _). unfold read_string_handle, read_index in E2.
    assert (X : forall k, 2 <= k -> k <= 4 -> rd p k eof r = Ok n r2 -> False).
    { intros k K1 K2 E3. unfold rd in E3. apply bind_inv_ok in E3 as ([d|] & r3 & E3 & E4); [|discriminate E4].
      assert (B : rpos r + k < 2 ^ 64).
      { unfold total_size in Hb. cbn in Hb. unfold index_size in Hb. destruct (wide_string E), (wide_guid E); cbn in Hb; lia. }
      destruct (read_inv _ _ _ _ _ Hs B E3). lia. }
    destruct (wide_string E); [apply (X 4)|apply (X 2)]; try lia; exact E2.
Qed.

Ltac row_reads :=
  eapply reads_eq; [cbv zeta; cbv beta delta [read_type_def_handle read_field_handle read_method_def_handle read_param_handle read_event_handle read_property_handle read_module_ref_handle read_assembly_ref_handle read_generic_param_handle read_string_handle read_guid_handle read_blob_handle read_type_def_or_ref_handle read_has_constant_handle read_has_custom_attribute_handle read_has_field_marshal_handle read_has_decl_security_handle read_member_ref_parent_handle read_has_semantics_handle read_method_def_or_ref_handle read_member_forwarded_handle read_implementation_handle read_custom_attribute_type_handle read_resolution_scope_handle read_type_or_method_def_handle read_type_def_handle_at read_field_handle_at read_method_def_handle_at read_param_handle_at read_event_handle_at read_property_handle_at read_module_ref_handle_at read_assembly_ref_handle_at read_generic_param_handle_at read_string_handle_at read_guid_handle_at read_blob_handle_at read_type_def_or_ref_handle_at read_has_constant_handle_at read_has_custom_attribute_handle_at read_has_field_marshal_handle_at read_has_decl_security_handle_at read_member_ref_parent_handle_at read_has_semantics_handle_at read_method_def_or_ref_handle_at read_member_forwarded_handle_at read_implementation_handle_at read_custom_attribute_type_handle_at read_resolution_scope_handle_at read_type_or_method_def_handle_at]; repeat reads_step|reflexivity].
Lemma reads_type_ref p E : reads (fun base => read_type_ref_at base p E) (read_type_ref p E) (map number (env_widths E TTypeRef)).
Proof. unfold read_type_ref_at, read_type_ref. row_reads. Qed.
Lemma reads_type_def p E : reads (fun base => read_type_def_at base p E) (read_type_def p E) (map number (env_widths E TTypeDef)).
Proof. unfold read_type_def_at, read_type_def. row_reads. Qed.
Lemma reads_field p E : reads (fun base => read_field_at base p E) (read_field p E) (map number (env_widths E TField)).
Proof. unfold read_field_at, read_field. row_reads. Qed.
Lemma reads_method_def p E : reads (fun base => read_method_def_at base p E) (read_method_def p E) (map number (env_widths E TMethodDef)).
Proof. unfold read_method_def_at, read_method_def. row_reads. Qed.
Lemma reads_param p E : reads (fun base => read_param_at base p E) (read_param p E) (map number (env_widths E TParam)).
Proof. unfold read_param_at, read_param. row_reads. Qed.
Lemma reads_interface_impl p E : reads (fun base => read_interface_impl_at base p E) (read_interface_impl p E) (map number (env_widths E TInterfaceImpl)).
Proof. unfold read_interface_impl_at, read_interface_impl. row_reads. Qed.
Lemma reads_member_ref p E : reads (fun base => read_member_ref_at base p E) (read_member_ref p E) (map number (env_widths E TMemberRef)).
Proof. unfold read_member_ref_at, read_member_ref. row_reads. Qed.
Lemma reads_constant p E : reads (fun base => read_constant_at base p E) (read_constant p E) (map number (env_widths E TConstant)).
Proof. unfold read_constant_at, read_constant. row_reads. Qed.
Lemma reads_custom_attribute p E : reads (fun base => read_custom_attribute_at base p E) (read_custom_attribute p E) (map number (env_widths E TCustomAttribute)).
Proof. unfold read_custom_attribute_at, read_custom_attribute. row_reads. Qed.
Lemma reads_field_marshal p E : reads (fun base => read_field_marshal_at base p E) (read_field_marshal p E) (map number (env_widths E TFieldMarshal)).
Proof. unfold read_field_marshal_at, read_field_marshal. row_reads. Qed.
Lemma reads_decl_security p E : reads (fun base => read_decl_security_at base p E) (read_decl_security p E) (map number (env_widths E TDeclSecurity)).
Proof. unfold read_decl_security_at, read_decl_security. row_reads. Qed.
Lemma reads_class_layout p E : reads (fun base => read_class_layout_at base p E) (read_class_layout p E) (map number (env_widths E TClassLayout)).
Proof. unfold read_class_layout_at, read_class_layout. row_reads. Qed.
Lemma reads_field_layout p E : reads (fun base => read_field_layout_at base p E) (read_field_layout p E) (map number (env_widths E TFieldLayout)).
Proof. unfold read_field_layout_at, read_field_layout. row_reads. Qed.
Lemma reads_standalone_sig p E : reads (fun base => read_standalone_sig_at base p E) (read_standalone_sig p E) (map number (env_widths E TStandaloneSig)).
Proof. unfold read_standalone_sig_at, read_standalone_sig. row_reads. Qed.
Lemma reads_event_map p E : reads (fun base => read_event_map_at base p E) (read_event_map p E) (map number (env_widths E TEventMap)).
Proof. unfold read_event_map_at, read_event_map. row_reads. Qed.
Lemma reads_event p E : reads (fun base => read_event_at base p E) (read_event p E) (map number (env_widths E TEvent)).
Proof. unfold read_event_at, read_event. row_reads. Qed.
Lemma reads_property_map p E : reads (fun base => read_property_map_at base p E) (read_property_map p E) (map number (env_widths E TPropertyMap)).
Proof. unfold read_property_map_at, read_property_map. row_reads. Qed.
Lemma reads_property p E : reads (fun base => read_property_at base p E) (read_property p E) (map number (env_widths E TProperty)).
Proof. unfold read_property_at, read_property. row_reads. Qed.
Lemma reads_method_semantics p E : reads (fun base => read_method_semantics_at base p E) (read_method_semantics p E) (map number (env_widths E TMethodSemantics)).
Proof. unfold read_method_semantics_at, read_method_semantics. row_reads. Qed.
Lemma reads_method_impl p E : reads (fun base => read_method_impl_at base p E) (read_method_impl p E) (map number (env_widths E TMethodImpl)).
Proof. unfold read_method_impl_at, read_method_impl. row_reads. Qed.
Lemma reads_module_ref p E : reads (fun base => read_module_ref_at base p E) (read_module_ref p E) (map number (env_widths E TModuleRef)).
Proof. unfold read_module_ref_at, read_module_ref. row_reads. Qed.
Lemma reads_type_spec p E : reads (fun base => read_type_spec_at base p E) (read_type_spec p E) (map number (env_widths E TTypeSpec)).
Proof. unfold read_type_spec_at, read_type_spec. row_reads. Qed.
Lemma reads_impl_map p E : reads (fun base => read_impl_map_at base p E) (read_impl_map p E) (map number (env_widths E TImplMap)).
Proof. unfold read_impl_map_at, read_impl_map. row_reads. Qed.
Lemma reads_field_rva p E : reads (fun base => read_field_rva_at base p E) (read_field_rva p E) (map number (env_widths E TFieldRva)).
Proof. unfold read_field_rva_at, read_field_rva. row_reads. Qed.
Lemma reads_assembly p E : reads (fun base => read_assembly_at base p E) (read_assembly p E) (map number (env_widths E TAssembly)).
Proof. unfold read_assembly_at, read_assembly. row_reads. Qed.
Lemma reads_assembly_processor p E : reads (fun base => read_assembly_processor_at base p E) (read_assembly_processor p E) (map number (env_widths E TAssemblyProcessor)).
Proof. unfold read_assembly_processor_at, read_assembly_processor. row_reads. Qed.
Lemma reads_assembly_os p E : reads (fun base => read_assembly_os_at base p E) (read_assembly_os p E) (map number (env_widths E TAssemblyOs)).
Proof. unfold read_assembly_os_at, read_assembly_os. row_reads. Qed.
Lemma reads_assembly_ref p E : reads (fun base => read_assembly_ref_at base p E) (read_assembly_ref p E) (map number (env_widths E TAssemblyRef)).
Proof. unfold read_assembly_ref_at, read_assembly_ref. row_reads. Qed.
Lemma reads_assembly_ref_processor p E : reads (fun base => read_assembly_ref_processor_at base p E) (read_assembly_ref_processor p E) (map number (env_widths E TAssemblyRefProcessor)).
Proof. unfold read_assembly_ref_processor_at, read_assembly_ref_processor. row_reads. Qed.
Lemma reads_assembly_ref_os p E : reads (fun base => read_assembly_ref_os_at base p E) (read_assembly_ref_os p E) (map number (env_widths E TAssemblyRefOs)).
Proof. unfold read_assembly_ref_os_at, read_assembly_ref_os. row_reads. Qed.
Lemma reads_file p E : reads (fun base => read_file_at base p E) (read_file p E) (map number (env_widths E TFile)).
Proof. unfold read_file_at, read_file. row_reads. Qed.
Lemma reads_exported_type p E : reads (fun base => read_exported_type_at base p E) (read_exported_type p E) (map number (env_widths E TExportedType)).
Proof. unfold read_exported_type_at, read_exported_type. row_reads. Qed.
Lemma reads_manifest_resource p E : reads (fun base => read_manifest_resource_at base p E) (read_manifest_resource p E) (map number (env_widths E TManifestResource)).
Proof. unfold read_manifest_resource_at, read_manifest_resource. row_reads. Qed.
Lemma reads_nested_class p E : reads (fun base => read_nested_class_at base p E) (read_nested_class p E) (map number (env_widths E TNestedClass)).
Proof. unfold read_nested_class_at, read_nested_class. row_reads. Qed.
Lemma reads_generic_param p E : reads (fun base => read_generic_param_at base p E) (read_generic_param p E) (map number (env_widths E TGenericParam)).
Proof. unfold read_generic_param_at, read_generic_param. row_reads. Qed.
Lemma reads_method_spec p E : reads (fun base => read_method_spec_at base p E) (read_method_spec p E) (map number (env_widths E TMethodSpec)).
Proof. unfold read_method_spec_at, read_method_spec. row_reads. Qed.
Lemma reads_generic_param_constraint p E : reads (fun base => read_generic_param_constraint_at base p E) (read_generic_param_constraint p E) (map number (env_widths E TGenericParamConstraint)).
Proof. unfold read_generic_param_constraint_at, read_generic_param_constraint. row_reads. Qed.

Lemma reads_row p E t : reads (fun base => row_reader_at base t p E) (row_reader t p E) (map number (env_widths E t)).
Proof.
  destruct t; cbn [row_reader_at row_reader];
  first
    [ apply reads_bind_ret with (1 := reads_module p E)
    | apply reads_bind_ret with (1 := reads_type_ref p E)
    | apply reads_bind_ret with (1 := reads_type_def p E)
    | apply reads_bind_ret with (1 := reads_field p E)
    | apply reads_bind_ret with (1 := reads_method_def p E)
    | apply reads_bind_ret with (1 := reads_param p E)
    | apply reads_bind_ret with (1 := reads_interface_impl p E)
    | apply reads_bind_ret with (1 := reads_member_ref p E)
    | apply reads_bind_ret with (1 := reads_constant p E)
    | apply reads_bind_ret with (1 := reads_custom_attribute p E)
    | apply reads_bind_ret with (1 := reads_field_marshal p E)
    | apply reads_bind_ret with (1 := reads_decl_security p E)
    | apply reads_bind_ret with (1 := reads_class_layout p E)
    | apply reads_bind_ret with (1 := reads_field_layout p E)
    | apply reads_bind_ret with (1 := reads_standalone_sig p E)
    | apply reads_bind_ret with (1 := reads_event_map p E)
    | apply reads_bind_ret with (1 := reads_event p E)
    | apply reads_bind_ret with (1 := reads_property_map p E)
    | apply reads_bind_ret with (1 := reads_property p E)
    | apply reads_bind_ret with (1 := reads_method_semantics p E)
    | apply reads_bind_ret with (1 := reads_method_impl p E)
    | apply reads_bind_ret with (1 := reads_module_ref p E)
    | apply reads_bind_ret with (1 := reads_type_spec p E)
    | apply reads_bind_ret with (1 := reads_impl_map p E)
    | apply reads_bind_ret with (1 := reads_field_rva p E)
    | apply reads_bind_ret with (1 := reads_assembly p E)
    | apply reads_bind_ret with (1 := reads_assembly_processor p E)
    | apply reads_bind_ret with (1 := reads_assembly_os p E)
    | apply reads_bind_ret with (1 := reads_assembly_ref p E)
    | apply reads_bind_ret with (1 := reads_assembly_ref_processor p E)
    | apply reads_bind_ret with (1 := reads_assembly_ref_os p E)
    | apply reads_bind_ret with (1 := reads_file p E)
    | apply reads_bind_ret with (1 := reads_exported_type p E)
    | apply reads_bind_ret with (1 := reads_manifest_resource p E)
    | apply reads_bind_ret with (1 := reads_nested_class p E)
    | apply reads_bind_ret with (1 := reads_generic_param p E)
    | apply reads_bind_ret with (1 := reads_method_spec p E)
    | apply reads_bind_ret with (1 := reads_generic_param_constraint p E) ].
Qed.

(** ** Tables *)

Definition env_parts (E : tenv) (t : table) : list (N * N) :=
  concat (repeat (map number (env_widths E t)) (N.to_nat (at_table 0 (row_counts E) t))).
Definition all_parts (E : tenv) : list (N * N) := flat_map (fun it => env_parts E (snd it)) ecma_tables.

Lemma reads_table {A} m' (m : M reader A) E t : reads m' m (map number (env_widths E t)) ->
  reads (fun base => read_table E t (m' base)) (read_table E t m) (env_parts E t).
Proof. intro H. unfold read_table, env_parts. apply reads_repeat. exact H. Qed.

Lemma reads_tables p E : reads (fun base => read_tables_at base p E) (read_tables p E) (all_parts E).
Proof.
  eapply reads_eq.
  { unfold read_tables_at, read_tables.
    eapply reads_bind; [apply (reads_table _ _ E TModule (reads_module p E))|intro].
    eapply reads_bind; [apply (reads_table _ _ E TTypeRef (reads_type_ref p E))|intro].
    eapply reads_bind; [apply (reads_table _ _ E TTypeDef (reads_type_def p E))|intro].
    eapply reads_bind; [apply (reads_table _ _ E TField (reads_field p E))|intro].
    eapply reads_bind; [apply (reads_table _ _ E TMethodDef (reads_method_def p E))|intro].
    eapply reads_bind; [apply (reads_table _ _ E TParam (reads_param p E))|intro].
    eapply reads_bind; [apply (reads_table _ _ E TInterfaceImpl (reads_interface_impl p E))|intro].
    eapply reads_bind; [apply (reads_table _ _ E TMemberRef (reads_member_ref p E))|intro].
    eapply reads_bind; [apply (reads_table _ _ E TConstant (reads_constant p E))|intro].
    eapply reads_bind; [apply (reads_table _ _ E TCustomAttribute (reads_custom_attribute p E))|intro].
    eapply reads_bind; [apply (reads_table _ _ E TFieldMarshal (reads_field_marshal p E))|intro].
    eapply reads_bind; [apply (reads_table _ _ E TDeclSecurity (reads_decl_security p E))|intro].
    eapply reads_bind; [apply (reads_table _ _ E TClassLayout (reads_class_layout p E))|intro].
    eapply reads_bind; [apply (reads_table _ _ E TFieldLayout (reads_field_layout p E))|intro].
    eapply reads_bind; [apply (reads_table _ _ E TStandaloneSig (reads_standalone_sig p E))|intro].
    eapply reads_bind; [apply (reads_table _ _ E TEventMap (reads_event_map p E))|intro].
    eapply reads_bind; [apply (reads_table _ _ E TEvent (reads_event p E))|intro].
    eapply reads_bind; [apply (reads_table _ _ E TPropertyMap (reads_property_map p E))|intro].
    eapply reads_bind; [apply (reads_table _ _ E TProperty (reads_property p E))|intro].
    eapply reads_bind; [apply (reads_table _ _ E TMethodSemantics (reads_method_semantics p E))|intro].
    eapply reads_bind; [apply (reads_table _ _ E TMethodImpl (reads_method_impl p E))|intro].
    eapply reads_bind; [apply (reads_table _ _ E TModuleRef (reads_module_ref p E))|intro].
    eapply reads_bind; [apply (reads_table _ _ E TTypeSpec (reads_type_spec p E))|intro].
    eapply reads_bind; [apply (reads_table _ _ E TImplMap (reads_impl_map p E))|intro].
    eapply reads_bind; [apply (reads_table _ _ E TFieldRva (reads_field_rva p E))|intro].
    eapply reads_bind; [apply (reads_table _ _ E TAssembly (reads_assembly p E))|intro].
    eapply reads_bind; [apply (reads_table _ _ E TAssemblyProcessor (reads_assembly_processor p E))|intro].
    eapply reads_bind; [apply (reads_table _ _ E TAssemblyOs (reads_assembly_os p E))|intro].
    eapply reads_bind; [apply (reads_table _ _ E TAssemblyRef (reads_assembly_ref p E))|intro].
    eapply reads_bind; [apply (reads_table _ _ E TAssemblyRefProcessor (reads_assembly_ref_processor p E))|intro].
    eapply reads_bind; [apply (reads_table _ _ E TAssemblyRefOs (reads_assembly_ref_os p E))|intro].
    eapply reads_bind; [apply (reads_table _ _ E TFile (reads_file p E))|intro].
    eapply reads_bind; [apply (reads_table _ _ E TExportedType (reads_exported_type p E))|intro].
    eapply reads_bind; [apply (reads_table _ _ E TManifestResource (reads_manifest_resource p E))|intro].
    eapply reads_bind; [apply (reads_table _ _ E TNestedClass (reads_nested_class p E))|intro].
    eapply reads_bind; [apply (reads_table _ _ E TGenericParam (reads_generic_param p E))|intro].
    eapply reads_bind; [apply (reads_table _ _ E TMethodSpec (reads_method_spec p E))|intro].
    eapply reads_bind; [apply (reads_table _ _ E TGenericParamConstraint (reads_generic_param_constraint p E))|intro].
    apply reads_ret. }
  reflexivity.
Qed.

Lemma env_widths_matches E sz t : env_matches E sz -> env_widths E t = widths sz t.
Proof.
  intros [Hs Hg Hb Hi Hc].
  assert (I : forall u, index_size (at_table false (wide_table_handles E) u) = index_width sz u).
  { intro u. rewrite Hi. unfold index_size, index_width. now destruct (rows sz u <? 2 ^ 16). }
  assert (C : forall k, index_size (kind_wide k E) = coded_width sz k).
  { intro k. rewrite Hc. unfold index_size, coded_width. now destruct (forallb _ _). }
  unfold env_widths. cbv zeta. rewrite Hs, Hg, Hb. unfold widths. destruct t; rewrite ?I, ?C; reflexivity.
Qed.
Lemma concat_repeat_flat {A B} (l : list A) (x : list B) : concat (repeat x (List.length l)) = flat_map (fun _ => x) l.
Proof. induction l as [|a l IH]; [reflexivity|]. cbn [List.length repeat concat flat_map]. now rewrite IH. Qed.
Lemma all_parts_matches E sz T : env_matches E sz -> (forall t, at_table 0 (row_counts E) t = len (rows_of T t)) ->
  all_parts E = tables_parts sz T.
Proof.
  intros M C. unfold all_parts, tables_parts. apply flat_map_ext. intros [i t]. cbn [snd]. unfold env_parts, row_parts.
  rewrite (env_widths_matches E sz t M), C, to_nat_len. apply concat_repeat_flat.
Qed.

(** ** Decoding at an address *)

Definition parses_at {A} (m' : N -> M reader A) (bs : list byte) (a : A) (parts : list (N * N)) : Prop :=
  total_size parts = len bs /\
  forall base pre rest, slice_ok (pre ++ bs ++ rest) ->
    m' base (mkReader (pre ++ bs ++ rest) (len pre)) =
    if suits_b (base + len pre) parts then Ok a (mkReader (pre ++ bs ++ rest) (len pre + len bs)) else Ub misaligned.

Lemma parses_at_of {A} m' (m : M reader A) bs a parts : reads m' m parts -> parses m bs a -> total_size parts = len bs ->
  parses_at m' bs a parts.
Proof.
  intros R P L. split; [exact L|]. intros base pre rest Hs. specialize (P pre rest Hs).
  apply (R base) in P as (_ & _ & P); [exact P|exact Hs|]. cbn [rpos]. rewrite L. unfold slice_ok in Hs.
  rewrite pow63, !len_app in Hs. rewrite pow64. lia.
Qed.
Lemma parses_at_bind {A B} m' (k' : N -> A -> M reader B) bs1 bs2 a b l1 l2 :
  parses_at m' bs1 a l1 -> parses_at (fun base => k' base a) bs2 b l2 ->
  parses_at (fun base => bind (m' base) (k' base)) (bs1 ++ bs2) b (l1 ++ l2).
Proof.
  intros [L1 H1] [L2 H2]. split; [rewrite total_size_app, len_app; lia|]. intros base pre rest Hs. unfold bind.
  rewrite <- app_assoc in *. rewrite (H1 base pre (bs2 ++ rest) Hs), suits_b_app.
  destruct (suits_b (base + len pre) l1); cbn [andb]; [|reflexivity].
  specialize (H2 base (pre ++ bs1) rest). rewrite <- !app_assoc in H2. specialize (H2 Hs).
  rewrite len_app in H2. rewrite H2, L1, len_app, !N.add_assoc. reflexivity.
Qed.
Lemma parses_at_ok_or {A B} (o : option A) a e (k' : N -> A -> M reader B) bs b l :
  o = Some a -> parses_at (fun base => k' base a) bs b l -> parses_at (fun base => x <- ok_or o e ;; k' base x) bs b l.
Proof. intros -> H. exact H. Qed.
Lemma parses_at_skip {B} p n bs1 (k' : N -> M reader B) bs2 b l : len bs1 = n -> parses_at k' bs2 b l ->
  parses_at (fun base => advance p n ;;; k' base) (bs1 ++ bs2) b ((n, 1) :: l).
Proof.
  intros L H. change ((n, 1) :: l) with ([(n, 1)] ++ l).
  apply (parses_at_bind (fun _ => advance p n) (fun base _ => k' base) bs1 bs2 true); [|exact H].
  split; [unfold total_size; cbn; lia|]. intros base pre rest Hs.
  rewrite advance_ok; cbn [rdata rpos].
  - rewrite suits_b_one, N.mod_1_r, <- L. replace (len pre + len bs1 <=? len (pre ++ bs1 ++ rest)) with true; [reflexivity|].
    symmetry. apply N.leb_le. rewrite !len_app. lia.
  - unfold slice_ok in Hs. rewrite pow63, !len_app in Hs. rewrite pow64. lia.
Qed.

Lemma rows_size sz l : forall b, rows_bytes sz l b -> (forall r cs, In r l -> row_columns r cs -> map (column_width sz) cs = widths sz (row_table r)) ->
  len b = total_size (flat_map (fun r => row_parts sz (row_table r)) l).
Proof.
  intros b H. induction H as [|r rs cs b bs Hr Hc Hrs IH]; intro W; [reflexivity|].
  cbn [flat_map]. rewrite total_size_app, len_app, IH; [f_equal|intros; apply W; [right|]; assumption].
  assert (E : len b = fold_right N.add 0 (map (column_width sz) cs)).
  { clear - Hc. induction Hc as [|c cs b bs Hc Hcs IH]; [reflexivity|]. cbn [map fold_right]. rewrite len_app, IH. f_equal.
    destruct Hc as (v & _ & _ & ->). rewrite len_le_enc. apply N2Nat.id. }
  rewrite E, (W r cs (or_introl eq_refl) Hr). unfold total_size, row_parts. f_equal. rewrite map_map.
  cbn [number fst]. now rewrite map_id.
Qed.
Lemma row_widths sz r cs : row_columns r cs -> map (column_width sz) cs = widths sz (row_table r).
Proof. intros []; reflexivity. Qed.
Lemma tables_size sz T l b : tables_bytes sz T l b ->
  len b = total_size (flat_map (fun it => flat_map (fun _ => row_parts sz (snd it)) (rows_of T (snd it))) l).
Proof.
  induction 1 as [|i t ts b bs Hr Hts IH]; [reflexivity|]. cbn [flat_map snd]. rewrite total_size_app, len_app, IH. f_equal.
  rewrite (rows_size sz _ _ Hr); [|intros; now apply row_widths]. f_equal.
  assert (X : forall r, In r (rows_of T t) -> row_table r = t).
  { intros r Hin. destruct t; cbn [rows_of] in Hin; apply in_map_iff in Hin as (x & <- & _); reflexivity. }
  clear - X. induction (rows_of T t) as [|r l IH]; [reflexivity|]. cbn [flat_map]. rewrite (X r (or_introl eq_refl)), IH; [reflexivity|].
  intros; apply X; now right.
Qed.

(** Like [m], or undefined for the address. *)
Definition guards {S A} (m' m : M S A) : Prop := forall r, m' r = m r \/ m' r = Ub misaligned.

Lemma guards_refl {S A} (m : M S A) : guards m m.
Proof. intro r. now left. Qed.
Lemma guards_bind {S A B} (m' m : M S A) (k' k : A -> M S B) :
  guards m' m -> (forall a, guards (k' a) (k a)) -> guards (bind m' k') (bind m k).
Proof.
  intros H1 H2 r. unfold bind. destruct (H1 r) as [->| ->]; [|now right].
  destruct (m r); auto. apply H2.
Qed.
Lemma guards_typed a base m : guards (typed a base m) m.
Proof. intro r. unfold typed. destruct (m r) as [[d|] r'| | | |]; auto. destruct (_ =? 0); auto. Qed.
Lemma guards_rd base p n e : guards (rd_at base p n e) (rd p n e).
Proof. apply guards_bind; [apply guards_typed|intro; apply guards_refl]. Qed.
Lemma guards_index base p w : guards (read_index_at base p w) (read_index p w).
Proof. destruct w; apply guards_rd. Qed.
Lemma guards_repeat {A} (m' m : M reader A) : guards m' m -> forall n, guards (repeat_m n m') (repeat_m n m).
Proof.
  intros H n. induction n as [|n IH]; cbn [repeat_m]; [apply guards_refl|].
  apply guards_bind; [exact H|intro]. apply guards_bind; [exact IH|intro; apply guards_refl].
Qed.
Lemma guards_table {A} E t (m' m : M reader A) : guards m' m -> guards (read_table E t m') (read_table E t m).
Proof. intro H. unfold read_table. now apply guards_repeat. Qed.
Lemma guards_coded base p w mask tt' e : guards (read_coded_at base p w mask tt' e) (read_coded p w mask tt' e).
Proof. apply guards_bind; [apply guards_index|intro; apply guards_refl]. Qed.
Lemma guards_if {A} (b : bool) (x' x y' y : M reader A) : guards x' x -> guards y' y -> guards (if b then x' else y') (if b then x else y).
Proof. destruct b; auto. Qed.
Ltac gd := repeat (cbv zeta; first
  [ apply guards_rd | apply guards_index | apply guards_coded | apply guards_typed | (simple apply guards_bind; [|intro])
  | (match goal with |- guards (match ?o with _ => _ end) _ => destruct o end) | apply guards_refl ]).

Lemma guards_read_tables base p E : guards (read_tables_at base p E) (read_tables p E).
Proof.
  unfold read_tables_at, read_tables.
  apply guards_bind; [apply guards_table; unfold read_module_at, read_module; gd|intro].
  apply guards_bind; [apply guards_table; unfold read_type_ref_at, read_type_ref; gd|intro].
  apply guards_bind; [apply guards_table; unfold read_type_def_at, read_type_def; gd|intro].
  apply guards_bind; [apply guards_table; unfold read_field_at, read_field; gd|intro].
  apply guards_bind; [apply guards_table; unfold read_method_def_at, read_method_def; gd|intro].
  apply guards_bind; [apply guards_table; unfold read_param_at, read_param; gd|intro].
  apply guards_bind; [apply guards_table; unfold read_interface_impl_at, read_interface_impl; gd|intro].
  apply guards_bind; [apply guards_table; unfold read_member_ref_at, read_member_ref; gd|intro].
  apply guards_bind; [apply guards_table; unfold read_constant_at, read_constant; gd|intro].
  apply guards_bind; [apply guards_table; unfold read_custom_attribute_at, read_custom_attribute; gd|intro].
  apply guards_bind; [apply guards_table; unfold read_field_marshal_at, read_field_marshal; gd|intro].
  apply guards_bind; [apply guards_table; unfold read_decl_security_at, read_decl_security; gd|intro].
  apply guards_bind; [apply guards_table; unfold read_class_layout_at, read_class_layout; gd|intro].
  apply guards_bind; [apply guards_table; unfold read_field_layout_at, read_field_layout; gd|intro].
  apply guards_bind; [apply guards_table; unfold read_standalone_sig_at, read_standalone_sig; gd|intro].
  apply guards_bind; [apply guards_table; unfold read_event_map_at, read_event_map; gd|intro].
  apply guards_bind; [apply guards_table; unfold read_event_at, read_event; gd|intro].
  apply guards_bind; [apply guards_table; unfold read_property_map_at, read_property_map; gd|intro].
  apply guards_bind; [apply guards_table; unfold read_property_at, read_property; gd|intro].
  apply guards_bind; [apply guards_table; unfold read_method_semantics_at, read_method_semantics; gd|intro].
  apply guards_bind; [apply guards_table; unfold read_method_impl_at, read_method_impl; gd|intro].
  apply guards_bind; [apply guards_table; unfold read_module_ref_at, read_module_ref; gd|intro].
  apply guards_bind; [apply guards_table; unfold read_type_spec_at, read_type_spec; gd|intro].
  apply guards_bind; [apply guards_table; unfold read_impl_map_at, read_impl_map; gd|intro].
  apply guards_bind; [apply guards_table; unfold read_field_rva_at, read_field_rva; gd|intro].
  apply guards_bind; [apply guards_table; unfold read_assembly_at, read_assembly; gd|intro].
  apply guards_bind; [apply guards_table; unfold read_assembly_processor_at, read_assembly_processor; gd|intro].
  apply guards_bind; [apply guards_table; unfold read_assembly_os_at, read_assembly_os; gd|intro].
  apply guards_bind; [apply guards_table; unfold read_assembly_ref_at, read_assembly_ref; gd|intro].
  apply guards_bind; [apply guards_table; unfold read_assembly_ref_processor_at, read_assembly_ref_processor; gd|intro].
  apply guards_bind; [apply guards_table; unfold read_assembly_ref_os_at, read_assembly_ref_os; gd|intro].
  apply guards_bind; [apply guards_table; unfold read_file_at, read_file; gd|intro].
  apply guards_bind; [apply guards_table; unfold read_exported_type_at, read_exported_type; gd|intro].
  apply guards_bind; [apply guards_table; unfold read_manifest_resource_at, read_manifest_resource; gd|intro].
  apply guards_bind; [apply guards_table; unfold read_nested_class_at, read_nested_class; gd|intro].
  apply guards_bind; [apply guards_table; unfold read_generic_param_at, read_generic_param; gd|intro].
  apply guards_bind; [apply guards_table; unfold read_method_spec_at, read_method_spec; gd|intro].
  apply guards_bind; [apply guards_table; unfold read_generic_param_constraint_at, read_generic_param_constraint; gd|intro].
  apply guards_refl.
Qed.

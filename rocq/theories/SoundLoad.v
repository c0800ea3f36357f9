(** Loading code has no undefined behaviour: tables, signatures, metadata and the loader. *)
From Coq Require Import NArith Lia String List Bool.
From Coq.Strings Require Import Byte.
From Verif Require Import Base Utf BinaryReader Pe Attributes Tables Blob Metadata Runtime Loader ParseSpec BaseFacts ReaderFacts SoundFacts.
Import ListNotations.
Open Scope N_scope.

(** ** Tables *)

Lemma sd_read_index p w : sound fits any (read_index p w).
Proof. unfold read_index. sd. Qed.
Lemma sd_read_coded p w m t e : sound fits any (read_coded p w m t e).
Proof. unfold read_coded. sd_step; [apply sd_read_index|]. sd. Qed.
Ltac sd_row := repeat first [ sd_step | apply sd_read_index | apply sd_read_coded
  | lazymatch goal with |- sound _ any (attr _) => apply sd_ok_or; intros; exact Logic.I end ].
Lemma sd_read_module p E : sound fits any (read_module p E).
Proof. unfold read_module, read_guid_handle, read_string_handle. sd_row. Qed.
Lemma sd_read_type_ref p E : sound fits any (read_type_ref p E).
Proof. unfold read_type_ref, read_resolution_scope_handle, read_string_handle. sd_row. Qed.
Lemma sd_read_type_def p E : sound fits any (read_type_def p E).
Proof. unfold read_type_def, read_field_handle, read_method_def_handle, read_string_handle, read_type_def_or_ref_handle. sd_row. Qed.
Lemma sd_read_field p E : sound fits any (read_field p E).
Proof. unfold read_field, read_blob_handle, read_string_handle. sd_row. Qed.
Lemma sd_read_method_def p E : sound fits any (read_method_def p E).
Proof. unfold read_method_def, read_blob_handle, read_param_handle, read_string_handle. sd_row. Qed.
Lemma sd_read_param p E : sound fits any (read_param p E).
Proof. unfold read_param, read_string_handle. sd_row. Qed.
Lemma sd_read_interface_impl p E : sound fits any (read_interface_impl p E).
Proof. unfold read_interface_impl, read_type_def_handle, read_type_def_or_ref_handle. sd_row. Qed.
Lemma sd_read_member_ref p E : sound fits any (read_member_ref p E).
Proof. unfold read_member_ref, read_blob_handle, read_member_ref_parent_handle, read_string_handle. sd_row. Qed.
Lemma sd_read_constant p E : sound fits any (read_constant p E).
Proof. unfold read_constant, read_blob_handle, read_has_constant_handle. sd_row. Qed.
Lemma sd_read_custom_attribute p E : sound fits any (read_custom_attribute p E).
Proof. unfold read_custom_attribute, read_blob_handle, read_custom_attribute_type_handle, read_has_custom_attribute_handle. sd_row. Qed.
Lemma sd_read_field_marshal p E : sound fits any (read_field_marshal p E).
Proof. unfold read_field_marshal, read_blob_handle, read_has_field_marshal_handle. sd_row. Qed.
Lemma sd_read_decl_security p E : sound fits any (read_decl_security p E).
Proof. unfold read_decl_security, read_blob_handle, read_has_decl_security_handle. sd_row. Qed.
Lemma sd_read_class_layout p E : sound fits any (read_class_layout p E).
Proof. unfold read_class_layout, read_type_def_handle. sd_row. Qed.
Lemma sd_read_field_layout p E : sound fits any (read_field_layout p E).
Proof. unfold read_field_layout, read_field_handle. sd_row. Qed.
Lemma sd_read_standalone_sig p E : sound fits any (read_standalone_sig p E).
Proof. unfold read_standalone_sig, read_blob_handle. sd_row. Qed.
Lemma sd_read_event_map p E : sound fits any (read_event_map p E).
Proof. unfold read_event_map, read_event_handle, read_type_def_handle. sd_row. Qed.
Lemma sd_read_event p E : sound fits any (read_event p E).
Proof. unfold read_event, read_string_handle, read_type_def_or_ref_handle. sd_row. Qed.
Lemma sd_read_property_map p E : sound fits any (read_property_map p E).
Proof. unfold read_property_map, read_property_handle, read_type_def_handle. sd_row. Qed.
Lemma sd_read_property p E : sound fits any (read_property p E).
Proof. unfold read_property, read_blob_handle, read_string_handle. sd_row. Qed.
Lemma sd_read_method_semantics p E : sound fits any (read_method_semantics p E).
Proof. unfold read_method_semantics, read_has_semantics_handle, read_method_def_handle. sd_row. Qed.
Lemma sd_read_method_impl p E : sound fits any (read_method_impl p E).
Proof. unfold read_method_impl, read_method_def_or_ref_handle, read_type_def_handle. sd_row. Qed.
Lemma sd_read_module_ref p E : sound fits any (read_module_ref p E).
Proof. unfold read_module_ref, read_string_handle. sd_row. Qed.
Lemma sd_read_type_spec p E : sound fits any (read_type_spec p E).
Proof. unfold read_type_spec, read_blob_handle. sd_row. Qed.
Lemma sd_read_impl_map p E : sound fits any (read_impl_map p E).
Proof. unfold read_impl_map, read_member_forwarded_handle, read_module_ref_handle, read_string_handle. sd_row. Qed.
Lemma sd_read_field_rva p E : sound fits any (read_field_rva p E).
Proof. unfold read_field_rva, read_field_handle. sd_row. Qed.
Lemma sd_read_assembly p E : sound fits any (read_assembly p E).
Proof. unfold read_assembly, read_blob_handle, read_string_handle. sd_row. Qed.
Lemma sd_read_assembly_processor p E : sound fits any (read_assembly_processor p E).
Proof. unfold read_assembly_processor. sd_row. Qed.
Lemma sd_read_assembly_os p E : sound fits any (read_assembly_os p E).
Proof. unfold read_assembly_os. sd_row. Qed.
Lemma sd_read_assembly_ref p E : sound fits any (read_assembly_ref p E).
Proof. unfold read_assembly_ref, read_blob_handle, read_string_handle. sd_row. Qed.
Lemma sd_read_assembly_ref_processor p E : sound fits any (read_assembly_ref_processor p E).
Proof. unfold read_assembly_ref_processor, read_assembly_ref_handle. sd_row. Qed.
Lemma sd_read_assembly_ref_os p E : sound fits any (read_assembly_ref_os p E).
Proof. unfold read_assembly_ref_os, read_assembly_ref_handle. sd_row. Qed.
Lemma sd_read_file p E : sound fits any (read_file p E).
Proof. unfold read_file, read_blob_handle, read_string_handle. sd_row. Qed.
Lemma sd_read_exported_type p E : sound fits any (read_exported_type p E).
Proof. unfold read_exported_type, read_implementation_handle, read_string_handle. sd_row. Qed.
Lemma sd_read_manifest_resource p E : sound fits any (read_manifest_resource p E).
Proof. unfold read_manifest_resource, read_implementation_handle, read_string_handle. sd_row. Qed.
Lemma sd_read_nested_class p E : sound fits any (read_nested_class p E).
Proof. unfold read_nested_class, read_type_def_handle. sd_row. Qed.
Lemma sd_read_generic_param p E : sound fits any (read_generic_param p E).
Proof. unfold read_generic_param, read_string_handle, read_type_or_method_def_handle. sd_row. Qed.
Lemma sd_read_method_spec p E : sound fits any (read_method_spec p E).
Proof. unfold read_method_spec, read_blob_handle, read_method_def_or_ref_handle. sd_row. Qed.
Lemma sd_read_generic_param_constraint p E : sound fits any (read_generic_param_constraint p E).
Proof. unfold read_generic_param_constraint, read_generic_param_handle, read_type_def_or_ref_handle. sd_row. Qed.
Lemma sd_read_tables p E : sound fits any (read_tables p E).
Proof.
  unfold read_tables, read_table.
  sd_step; [apply sd_repeat, sd_read_module|].
  sd_step; [apply sd_repeat, sd_read_type_ref|].
  sd_step; [apply sd_repeat, sd_read_type_def|].
  sd_step; [apply sd_repeat, sd_read_field|].
  sd_step; [apply sd_repeat, sd_read_method_def|].
  sd_step; [apply sd_repeat, sd_read_param|].
  sd_step; [apply sd_repeat, sd_read_interface_impl|].
  sd_step; [apply sd_repeat, sd_read_member_ref|].
  sd_step; [apply sd_repeat, sd_read_constant|].
  sd_step; [apply sd_repeat, sd_read_custom_attribute|].
  sd_step; [apply sd_repeat, sd_read_field_marshal|].
  sd_step; [apply sd_repeat, sd_read_decl_security|].
  sd_step; [apply sd_repeat, sd_read_class_layout|].
  sd_step; [apply sd_repeat, sd_read_field_layout|].
  sd_step; [apply sd_repeat, sd_read_standalone_sig|].
  sd_step; [apply sd_repeat, sd_read_event_map|].
  sd_step; [apply sd_repeat, sd_read_event|].
  sd_step; [apply sd_repeat, sd_read_property_map|].
  sd_step; [apply sd_repeat, sd_read_property|].
  sd_step; [apply sd_repeat, sd_read_method_semantics|].
  sd_step; [apply sd_repeat, sd_read_method_impl|].
  sd_step; [apply sd_repeat, sd_read_module_ref|].
  sd_step; [apply sd_repeat, sd_read_type_spec|].
  sd_step; [apply sd_repeat, sd_read_impl_map|].
  sd_step; [apply sd_repeat, sd_read_field_rva|].
  sd_step; [apply sd_repeat, sd_read_assembly|].
  sd_step; [apply sd_repeat, sd_read_assembly_processor|].
  sd_step; [apply sd_repeat, sd_read_assembly_os|].
  sd_step; [apply sd_repeat, sd_read_assembly_ref|].
  sd_step; [apply sd_repeat, sd_read_assembly_ref_processor|].
  sd_step; [apply sd_repeat, sd_read_assembly_ref_os|].
  sd_step; [apply sd_repeat, sd_read_file|].
  sd_step; [apply sd_repeat, sd_read_exported_type|].
  sd_step; [apply sd_repeat, sd_read_manifest_resource|].
  sd_step; [apply sd_repeat, sd_read_nested_class|].
  sd_step; [apply sd_repeat, sd_read_generic_param|].
  sd_step; [apply sd_repeat, sd_read_method_spec|].
  sd_step; [apply sd_repeat, sd_read_generic_param_constraint|].
  sd.
Qed.
Lemma count_ones_le x : forall n i, count_ones x i n <= N.of_nat n.
Proof. induction n as [|n IH]; intro i; cbn [count_ones]; [lia|]. specialize (IH (i + 1)). destruct (N.testbit x i); lia. Qed.
Lemma sd_read_table_stream p : sound fits any (read_table_stream p).
Proof.
  unfold read_table_stream. cbv zeta. do 6 (sd_step; [sd|]).
  sd_step; [apply sd_read_array; pose proof (count_ones_le a3 64 0); rewrite pow63; lia|]. sd_step; [sd|]. apply sd_read_tables.
Qed.

(** ** Signatures *)

Lemma sd_compressed p : sound fits any (read_compressed_u32 p).
Proof. unfold read_compressed_u32. sd. Qed.
Ltac sd_sig := repeat first [ sd_step | apply sd_compressed ].
Lemma sd_array_shape p : sound fits any (read_array_shape p).
Proof. unfold read_array_shape. sd_sig. Qed.
Lemma sd_type_def_or_ref p : sound fits any (read_type_def_or_ref p).
Proof. unfold read_type_def_or_ref. cbv zeta. sd_sig. Qed.
Lemma sd_element_type_f p : forall f, sound fits any (element_type_f f p).
Proof.
  induction f as [|f IH]; cbn [element_type_f]; [apply sd_nofuel|].
  repeat first [ sd_step | apply sd_compressed | apply IH | apply sd_type_def_or_ref | apply sd_array_shape ].
Qed.
Lemma sd_element_type p : sound fits any (read_element_type p).
Proof. intros r Hr. exact (sd_element_type_f p _ r Hr). Qed.
Ltac sd_sig2 := repeat first [ sd_step | apply sd_compressed | apply sd_element_type ].
Lemma sd_field_signature p : sound fits any (read_field_signature p).
Proof. unfold read_field_signature. sd_sig2. Qed.
Lemma sd_method_signature p : sound fits any (read_method_signature p).
Proof. unfold read_method_signature. cbv zeta. sd_sig2. Qed.
Lemma sd_property_signature p : sound fits any (read_property_signature p).
Proof. unfold read_property_signature. cbv zeta. sd_sig2. Qed.
Lemma sd_method_spec p : sound fits any (read_method_spec_sig p).
Proof. unfold read_method_spec_sig. sd_sig2. Qed.
Lemma sd_marshal_scalar p : sound fits any (read_marshal_scalar p).
Proof. unfold read_marshal_scalar. sd_sig2. Qed.
Lemma sd_marshal p : sound fits any (read_marshal_descriptor p).
Proof. unfold read_marshal_descriptor. repeat first [ sd_step | apply sd_compressed | apply sd_marshal_scalar ]. Qed.
Lemma sd_utf16 p : sound fits any (read_utf16_str p).
Proof.
  intros r Hr. unfold read_utf16_str. cbv zeta.
  assert (H : sound fits any (read_array p 2 (len (rdata r) / 2))).
  { apply sd_read_array. unfold fits, slice_ok in Hr. rewrite pow63 in *. pose proof (N.mul_div_le (len (rdata r)) 2 ltac:(discriminate)). lia. }
  assert (G : sound fits any (o <- read_array p 2 (len (rdata r) / 2) ;;
     match o with
     | Some d => ret (map le_dec (chunks 2 (N.to_nat (len (rdata r) / 2)) d))
     | None => fail "Unable to read UTF16 string from blob"
     end)) by (sd_step; [exact H|sd]).
  exact (G r Hr).
Qed.

Lemma slice_skip d n : slice_ok d -> slice_ok (skipn n d).
Proof. unfold slice_ok. rewrite len_skipn. lia. Qed.
Lemma slice_sub d a n : slice_ok d -> slice_ok (sub_list a n d).
Proof.
  intro H. unfold slice_ok, sub_list, len in *. rewrite firstn_length, skipn_length. lia.
Qed.
Lemma sd_blob_reader p d : slice_ok d -> sound any fits (fun _ => blob_reader_new p d).
Proof.
  intros Hd s _. unfold blob_reader_new. pose proof (sd_compressed p (mkReader d 0) Hd) as H.
  destruct (read_compressed_u32 p (mkReader d 0)) as [n r|e r|w|w|]; try exact H; [|exact Logic.I].
  destruct (len d <? rpos r + n); [exact Logic.I|]. split; [exact Logic.I|]. unfold fits. cbn [rdata]. now apply slice_sub.
Qed.
Lemma sd_blob_heap p d h : slice_ok d -> sound any fits (fun _ => blob_heap_reader p d h).
Proof.
  intros Hd s Hs. unfold blob_heap_reader. destruct (len d <? h); [exact Logic.I|]. exact (sd_blob_reader p _ (slice_skip _ _ Hd) s Hs).
Qed.

(** ** Metadata *)

Lemma sd_slice_from (P : unit -> Prop) d a : slice_ok d -> sound P slice_ok (slice_from d a).
Proof. intro H. unfold slice_from. destruct (len d <? a); [apply sd_panic|]. apply sd_ret. now apply slice_skip. Qed.
Lemma sd_slice_range (P : unit -> Prop) d a b : slice_ok d -> sound P slice_ok (slice_range d a b).
Proof.
  intro H. unfold slice_range. destruct (b <? a); [apply sd_panic|]. destruct (len d <? b); [apply sd_panic|]. apply sd_ret. now apply slice_sub.
Qed.
Lemma sd_resolve_rva {S} (P : S -> Prop) p pe rva : sound P any (resolve_rva p pe rva).
Proof. unfold resolve_rva. induction (pi_sections pe) as [|x l IH]; cbn [resolve_rva_]; [apply sd_fail|]. repeat first [ sd_step | apply IH ]. Qed.
Lemma sd_stream_headers p : forall n h, sound fits any (read_stream_headers p n h).
Proof. induction n as [|n IH]; intro h; cbn [read_stream_headers]; [sd|]. repeat first [ sd_step | apply IH | progress unfold set_stream ]. Qed.
Lemma sd_read_root p : sound fits any (read_root p).
Proof.
  unfold read_root. sd_step; [sd|]. sd_step; [sd|]. sd_step; [sd|]. sd_step; [sd|].
  apply (sd_bind _ (fun x => x < 2 ^ 32)); [now apply sd_rd_below|]. intros n Hn.
  sd_step; [apply sd_read_str; rewrite pow32, pow63 in *; lia|]. do 3 (sd_step; [sd|]). apply sd_stream_headers.
Qed.
Lemma sd_stream_slice p d h : slice_ok d -> sound any slice_ok (stream_slice p d h).
Proof. intro H. unfold stream_slice. sd_step; [sd|]. now apply sd_slice_range. Qed.

(** The parts of an image that are read later. *)
Definition parts_fit (md : metadata) : Prop := slice_ok (m_pe_data md) /\ slice_ok (m_blob md) /\ slice_ok (m_user_strings md).
Lemma sd_read_metadata p data : slice_ok data -> sound any parts_fit (read_metadata p data).
Proof.
  intro Hd. unfold read_metadata. sd_step; [apply sd_on_reader; [exact Hd|apply sd_parse_pe]|].
  sd_step; [sd|]. sd_step; [apply sd_map_err, sd_resolve_rva|].
  apply (sd_bind _ slice_ok); [now apply sd_slice_from|intros hdr Hh].
  sd_step; [apply sd_on_reader; [exact Hh|sd]|]. sd_step; [sd|]. cbv zeta. sd_step; [apply sd_map_err, sd_resolve_rva|].
  apply (sd_bind _ slice_ok); [now apply sd_slice_range|intros md Hm].
  sd_step; [apply sd_on_reader; [exact Hm|apply sd_read_root]|].
  sd_step; [sd|]. sd_step; [eapply sd_any, sd_stream_slice, Hm|].
  apply (sd_bind _ slice_ok).
  { destruct (hd_us a5); [now apply sd_stream_slice|now apply sd_ret]. }
  intros us Hus. sd_step; [sd|].
  apply (sd_bind _ slice_ok); [now apply sd_stream_slice|intros blob Hb].
  sd_step; [sd|]. sd_step; [eapply sd_any, sd_stream_slice, Hm|]. sd_step; [sd|].
  apply (sd_bind _ slice_ok); [now apply sd_stream_slice|intros td Ht].
  sd_step; [apply sd_on_reader; [exact Ht|apply sd_read_table_stream]|].
  apply sd_ret. now repeat split.
Qed.
Lemma sd_get_pe_data p md rs : parts_fit md -> sound any slice_ok (get_pe_data p md rs).
Proof. intros (H & _). unfold get_pe_data. sd_step; [apply sd_resolve_rva|]. now apply sd_slice_range. Qed.
Lemma sd_get_resource_data p md o : parts_fit md -> sound any slice_ok (get_resource_data p md o).
Proof.
  intro H. unfold get_resource_data. apply (sd_bind _ slice_ok); [now apply sd_get_pe_data|intros d Hd].
  apply (sd_bind _ slice_ok); [now apply sd_slice_from|intros e He]. sd_step; [sd|]. cbv zeta. now apply sd_slice_range.
Qed.

(** ** The runtime and the loader; nothing is asked of the state *)

Notation good m := (sound (S := vm) any any m).

Lemma sd_table_index {A} p (rows : list A) h : sound any any (fun _ : unit => table_index p rows h).
Proof. intros s _. unfold table_index. destruct (u_sub p 64 h 1); [|exact Logic.I]. destruct (nth_error _ _); [split|]; exact Logic.I. Qed.
Lemma sd_row_at {A} p (rows : list A) h : good (row_at p rows h).
Proof. apply sd_lift, sd_table_index. Qed.
Lemma sd_the_type t : good (the_type t).
Proof. intros s _. unfold the_type. destruct (nth_error _ _); [split|]; exact Logic.I. Qed.
Lemma sd_the_assembly t : good (the_assembly t).
Proof. intros s _. unfold the_assembly. destruct (nth_error _ _) as [[?|]|]; [split| |]; exact Logic.I. Qed.
Lemma sd_get_type n : good (get_type n).
Proof. intros s _. split; exact Logic.I. Qed.
Lemma sd_state : good (@get_state vm).
Proof. intros s _. split; exact Logic.I. Qed.
Lemma sd_put s' : good (@put_state vm s').
Proof. intros s _. split; exact Logic.I. Qed.
Lemma sd_modify_type t f : good (modify_type t f).
Proof. intros s _. split; exact Logic.I. Qed.
Lemma sd_modify_assembly t f : good (modify_assembly t f).
Proof. intros s _. split; exact Logic.I. Qed.
Lemma sd_next_type_id p : good (next_type_id p).
Proof. intros s _. unfold next_type_id. destruct (u_add _ _ _ _); [split|]; exact Logic.I. Qed.
Lemma sd_add_type t : good (add_type t).
Proof. intros s _. split; exact Logic.I. Qed.
Lemma sd_new_assembly t : good (new_assembly t).
Proof. intros s _. split; exact Logic.I. Qed.
Ltac sv_step := first [ sd_step | apply sd_row_at | apply sd_the_type | apply sd_the_assembly | apply sd_get_type | apply sd_state | apply sd_put
  | apply sd_modify_type | apply sd_modify_assembly | apply sd_next_type_id | apply sd_add_type | apply sd_new_assembly
  | apply sd_lift, sd_table_index
  | lazymatch goal with |- sound _ any (unwrap_result _) => apply sd_unwrap_result end
  | lazymatch goal with |- sound _ any (map_m _ _) => apply sd_map_m; intro end
  | lazymatch goal with |- sound _ any (iter_m _ _) => apply sd_iter_m; intro end
  | lazymatch goal with |- sound _ any (range_m _ _ _) => apply sd_range_m; intro end
  | lazymatch goal with |- sound _ any (fold_m _ _ _) => apply sd_fold_m; intros ? ? end ].
Ltac sv := repeat sv_step.
Lemma sd_named n : good (named n).
Proof. unfold named. sv. Qed.
Lemma sd_type_eq t u : good (type_eq t u).
Proof. unfold type_eq. sv. Qed.
Lemma sd_name p md h : good (type_def_or_ref_name p md h).
Proof. unfold type_def_or_ref_name. sv. Qed.
Lemma sd_array_of p t : good (array_of p t).
Proof. unfold array_of. sv. Qed.
Lemma sd_type_for_element p md : forall e, good (type_for_element p md e).
Proof.
  induction e; cbn [type_for_element]; repeat first [ sv_step | apply sd_named | apply sd_name | apply sd_array_of | assumption ].
Qed.
Lemma sd_contains_type u : forall l, good (contains_type l u).
Proof. induction l; cbn [contains_type]; repeat first [ sv_step | apply sd_type_eq | assumption ]. Qed.
Lemma sd_instance_of u : forall f t, good (instance_of f t u).
Proof. induction f as [|f IH]; intro t; cbn [instance_of]; repeat first [ sv_step | apply sd_type_eq | apply sd_contains_type | apply IH ]. Qed.
Lemma sd_is_reference_type f t : good (is_reference_type f t).
Proof. unfold is_reference_type. repeat first [ sv_step | apply sd_named | apply sd_instance_of ]. Qed.
Lemma sd_try_sizes t : forall l, good (try_sizes l t).
Proof. induction l as [|[? ?] ? ?]; cbn [try_sizes]; repeat first [ sv_step | apply sd_named | apply sd_type_eq | assumption ]. Qed.
Lemma sd_type_size p : forall f t, good (type_size f p t).
Proof.
  induction f as [|f IH]; intro t; cbn [type_size]; [apply sd_nofuel|]. sv_step; [apply sd_try_sizes|].
  repeat first [ sv_step | apply sd_is_reference_type | apply IH ].
Qed.
Lemma sd_get_method t n : good (get_method t n).
Proof. unfold get_method. sv. Qed.
Lemma sd_resolve_method p a tok : good (resolve_method p a tok).
Proof. unfold resolve_method, get_row. sv. Qed.
Lemma sd_get_string p a tok s ai : nth_error (c_arena s) a = Some (Some ai) -> slice_ok (a_user_strings ai) ->
  forall w, get_string p a tok s <> Ub w.
Proof.
  intros E Hs w. unfold get_string, bind at 1. unfold the_assembly. rewrite E.
  assert (G : good (if token_table tok =? 0x70 then
    d <- lift (slice_from (a_user_strings ai) (token_index tok)) ;;
    o <- lift (try_m (fun _ => blob_reader_new p d)) ;;
    match o with
    | None => ret None
    | Some r => lift (try_m (on_reader r (read_utf16_str p)))
    end
  else ret None)).
  { destruct (_ =? _); [|sd]. apply (sd_bind _ slice_ok); [apply sd_lift; now apply sd_slice_from|intros d Hd].
    apply (sd_bind _ (fun o => match o with Some r => fits r | None => True end)).
    - apply sd_lift. pose proof (sd_blob_reader p d Hd) as H. intros u Hu. unfold try_m. specialize (H u Hu).
      destruct (blob_reader_new p d); try exact H; split; exact Logic.I.
    - intros [r|] Hr; [|now apply sd_ret]. apply sd_lift, sd_try. apply sd_on_reader; [exact Hr|apply sd_utf16]. }
  specialize (G s Logic.I). cbv beta. intro X. rewrite X in G. exact G.
Qed.

Section Loader.
  Variables (p : profile) (md : metadata).
  Hypothesis F : parts_fit md.

  Lemma sd_catch_type tok : good (catch_type p md tok).
  Proof. unfold catch_type. sv. Qed.
  Lemma sd_new_clause k a b c d e : good (new_clause p md k a b c d e).
  Proof. unfold new_clause. repeat first [ sv_step | apply sd_catch_type ]. Qed.
  Lemma sd_reading {A B} r (m : M reader A) (k : A * reader -> M vm B) : fits r -> sound fits any m ->
    (forall a r', fits r' -> good (k (a, r'))) -> good (bind (with_reader r m) k).
  Proof.
    intros Hr Hm Hk. apply (sd_bind _ (fun x => any (fst x) /\ fits (snd x))); [now apply sd_with_reader|].
    intros [a r'] [_ H]. exact (Hk a r' H).
  Qed.
  Lemma sd_reading_err {A B} r (m : M reader A) (k : A * reader -> M vm B) e : fits r -> sound fits any m ->
    (forall a r', fits r' -> good (k (a, r'))) -> good (bind (map_err (with_reader r m) e) k).
  Proof.
    intros Hr Hm Hk. apply (sd_bind _ (fun x => any (fst x) /\ fits (snd x))); [apply sd_map_err; now apply sd_with_reader|].
    intros [a r'] [_ H]. exact (Hk a r' H).
  Qed.
  Lemma sd_read_clauses w1 w2 : w1 < 2 ^ 63 -> w2 < 2 ^ 63 -> forall n r, fits r -> good (read_clauses p md w1 w2 n r).
  Proof.
    intros H1 H2. induction n as [|n IH]; intros r Hr; cbn [read_clauses]; [sd|].
    apply sd_reading; [exact Hr|now apply sd_rd|]. clear r Hr. intros code r Hr. sd_step; [sd|].
    apply sd_reading; [exact Hr|now apply sd_rd|]. clear r Hr. intros x1 r Hr.
    apply sd_reading; [exact Hr|now apply sd_rd|]. clear r Hr. intros x2 r Hr.
    apply sd_reading; [exact Hr|now apply sd_rd|]. clear r Hr. intros x3 r Hr.
    apply sd_reading; [exact Hr|now apply sd_rd|]. clear r Hr. intros x4 r Hr.
    apply sd_reading; [exact Hr|now apply sd_rd|]. clear r Hr. intros x5 r Hr.
    sd_step; [apply sd_new_clause|]. sd_step; [now apply IH|]. sd.
  Qed.
  Lemma sd_align : forall n, sound fits any (align4 p n).
  Proof. induction n as [|n IH]; cbn [align4]; repeat first [ sd_step | apply IH ]. Qed.
  Lemma sd_read_section r : fits r -> good (read_section p md r).
  Proof.
    intro Hr. unfold read_section. apply sd_reading; [exact Hr|apply sd_align|]. clear r Hr. intros x1 r Hr.
    apply sd_reading; [exact Hr|now apply sd_rd|]. clear r Hr. intros x2 r Hr. destruct (negb _); [sd|].
    apply sd_reading; [exact Hr|now apply sd_rd|]. clear r Hr. intros x3 r Hr. destruct (has _ _).
    - apply sd_reading; [exact Hr|now apply sd_rd|]. clear r Hr. intros x4 r Hr. now apply sd_read_clauses.
    - apply sd_reading; [exact Hr|apply sd_advance|]. clear r Hr. intros x4 r Hr. now apply sd_read_clauses.
  Qed.
  Lemma sd_read_locals : forall n r, fits r -> good (read_locals p md n r).
  Proof.
    induction n as [|n IH]; intros r Hr; cbn [read_locals]; [sd|].
    apply sd_reading_err; [exact Hr|apply sd_element_type|]. clear r Hr. intros x1 r Hr.
    sd_step; [apply sd_type_for_element|]. sd_step; [now apply IH|]. sd.
  Qed.
  Lemma sd_blob_at h : sound (S := vm) any fits (lift (fun _ => blob_heap_reader p (m_blob md) h)).
  Proof. apply sd_lift, sd_blob_heap, F. Qed.
  Lemma sd_load_locals tok : good (load_locals p md tok).
  Proof.
    unfold load_locals. destruct (_ =? _); [sd|]. sd_step; [apply sd_row_at|].
    apply (sd_bind _ fits); [apply sd_map_err, sd_blob_at|intros r Hr].
    apply sd_reading_err; [exact Hr|now apply sd_rd|]. clear r Hr. intros x1 r Hr. destruct (negb _); [sd|].
    apply sd_reading_err; [exact Hr|apply sd_compressed|]. clear r Hr. intros x2 r Hr. now apply sd_read_locals.
  Qed.
  Lemma sd_read_code n : n < 2 ^ 63 -> sound fits any (read_code p n).
  Proof. intro H. unfold read_code. sd_step; [apply sd_read_array; now rewrite N.mul_1_r|]. sd. Qed.
  Lemma sd_load_body rva : good (load_body p md rva).
  Proof.
    unfold load_body. sd_step; [apply sd_map_err, sd_lift, sd_resolve_rva|].
    apply (sd_bind _ slice_ok); [apply sd_lift, sd_slice_from, F|intros d Hd].
    apply (sd_bind _ (fun x => fst x < 256 /\ fits (snd x))); [apply (sd_with_reader _ (fun x => x < 256)); [exact Hd|now apply sd_rd_below]|].
    intros [b r] [Hb Hr]. cbn [fst snd] in Hb, Hr.
    assert (T : good (' (code, _) <- with_reader r (read_code p (N.shiftr (N.land b 0xfc) 2)) ;; ret (mkBody code 8 [] (has b 0x10) []))).
    { apply sd_reading; [exact Hr| |intros; sd]. apply sd_read_code. rewrite N.shiftr_div_pow2.
      apply (N.le_lt_trans _ (N.land b 0xfc)); [apply N.div_le_upper_bound; [discriminate|change (2 ^ 2) with 4; lia]|].
      apply (N.le_lt_trans _ 255); [|reflexivity]. rewrite <- (N.mod_small b 256 Hb). clear.
      change 256 with (2 ^ 8). rewrite <- (N.land_ones b 8), <- N.land_assoc. change (N.land (N.ones 8) 0xfc) with 0xfc.
      rewrite N.land_comm. apply N.lt_succ_r. change (N.succ 255) with (2 ^ 8). destruct (N.eq_dec (N.land 252 b) 0) as [->|Z]; [reflexivity|].
      apply N.log2_lt_pow2; [lia|]. eapply N.le_lt_trans; [apply N.log2_land|]. apply N.min_lt_iff. left. reflexivity. }
    assert (G : good (' (_, r) <- with_reader r (advance p 1) ;;
      ' (max_stack, r) <- with_reader r (rd p 2 bad_body) ;;
      ' (code_size, r) <- with_reader r (rd p 4 bad_body) ;;
      ' (locals_token, r) <- with_reader r (rd p 4 bad_body) ;;
      locals <- load_locals p md locals_token ;;
      ' (code, r) <- with_reader r (read_code p code_size) ;;
      clauses <- (if has b 8 then read_section p md r else ret []) ;;
      ret (mkBody code max_stack locals (has b 0x10) clauses))).
    { clear T. apply sd_reading; [exact Hr|apply sd_advance|]. clear r Hr. intros _ r Hr.
      apply sd_reading; [exact Hr|now apply sd_rd|]. clear r Hr. intros mx r Hr.
      apply (sd_bind _ (fun x => fst x < 2 ^ 32 /\ fits (snd x))); [apply (sd_with_reader _ (fun x => x < 2 ^ 32)); [exact Hr|now apply sd_rd_below]|].
      clear r Hr. intros [n r] [Hn Hr]. cbn [fst snd] in Hn, Hr.
      apply sd_reading; [exact Hr|now apply sd_rd|]. clear r Hr. intros tok r Hr. sd_step; [apply sd_load_locals|].
      apply sd_reading; [exact Hr|apply sd_read_code; rewrite pow32, pow63 in *; lia|]. clear r Hr. intros code r Hr.
      sd_step; [|sd]. destruct (has b 8); [now apply sd_read_section|sd]. }
    destruct (N.land b 3) as [|[[?|?|]|[?|?|]|]]; first [exact T|exact G|apply sd_fail].
  Qed.
  Lemma sd_signature_at {A} h (m : M reader A) : sound fits any m -> good (signature_at p md h m).
  Proof.
    intro H. unfold signature_at. apply (sd_bind _ fits); [apply sd_blob_at|intros r Hr]. apply sd_lift. now apply sd_on_reader.
  Qed.
  Lemma sd_load_field t i o : good (load_field p md t i o).
  Proof. unfold load_field. repeat first [ sv_step | apply sd_signature_at, sd_field_signature | apply sd_type_for_element ]. Qed.
  Lemma sd_param_type_names l : good (param_type_names p md l).
  Proof. unfold param_type_names. repeat first [ sv_step | apply sd_type_for_element ]. Qed.
  Lemma sd_load_params : forall l h, good (load_params p md h l).
  Proof. induction l as [|e l IH]; intro h; cbn [load_params]; repeat first [ sv_step | apply sd_type_for_element | apply IH ]. Qed.
  Lemma sd_load_method t i : good (load_method p md t i).
  Proof.
    unfold load_method. repeat first [ sv_step | apply sd_signature_at, sd_method_signature | apply sd_type_for_element
      | apply sd_param_type_names | apply sd_load_params | apply sd_load_body ].
  Qed.
  Lemma sd_load_type a i : good (load_type p md a i).
  Proof. unfold load_type. sv. Qed.
  Lemma sd_resolve_base t i : good (resolve_base p md t i).
  Proof. unfold resolve_base. repeat first [ sv_step | apply sd_name ]. Qed.
  Lemma sd_resolve_kind t i : good (resolve_kind p md t i).
  Proof. unfold resolve_kind. sv. Qed.
  Lemma sd_reserve n : good (reserve n).
  Proof. unfold reserve. sv. Qed.
  Lemma sd_run_length i f n : good (run_length p md i f n).
  Proof. unfold run_length. sv. Qed.
  Lemma sd_load_fields f t : forall n i o, good (load_fields f p md t n i o).
  Proof. induction n as [|n IH]; intros i o; cbn [load_fields]; repeat first [ sv_step | apply sd_load_field | apply sd_type_size | apply IH ]. Qed.
  Lemma sd_resolve_fields f t i : good (resolve_fields f p md t i).
  Proof. unfold resolve_fields. cbv zeta. repeat first [ sv_step | apply sd_run_length | apply sd_reserve | apply sd_type_size | apply sd_load_fields ]. Qed.
  Lemma sd_resolve_methods t i : good (resolve_methods p md t i).
  Proof. unfold resolve_methods. cbv zeta. repeat first [ sv_step | apply sd_run_length | apply sd_reserve | apply sd_load_method ]. Qed.
  Lemma sd_resolve f t i : good (resolve f p md t i).
  Proof. unfold resolve. repeat first [ sv_step | apply sd_resolve_base | apply sd_resolve_kind | apply sd_resolve_fields | apply sd_resolve_methods ]. Qed.
  Lemma sd_full_name_at a b : good (full_name_at md a b).
  Proof. unfold full_name_at. sv. Qed.
  Lemma sd_load_method_refs : forall l, good (load_method_refs p md l).
  Proof.
    induction l as [|x l IH]; cbn [load_method_refs]; [sd|]. destruct (ref_table _); try exact IH.
    repeat first [ sv_step | apply sd_full_name_at | apply sd_get_method | apply IH ].
  Qed.
  Lemma sd_load_type_refs : good (load_type_refs p md).
  Proof. unfold load_type_refs. repeat first [ sv_step | apply sd_full_name_at ]. Qed.
  Lemma sd_load_interface_impl x : good (load_interface_impl p md x).
  Proof. unfold load_interface_impl. repeat first [ sv_step | apply sd_full_name_at ]. Qed.
  Lemma sd_load_types a : forall n i, good (load_types p md a n i).
  Proof. induction n as [|n IH]; intro i; cbn [load_types]; repeat first [ sv_step | apply sd_load_type | apply IH ]. Qed.
  Lemma sd_resolve_types f : forall l i, good (resolve_types f p md l i).
  Proof. induction l as [|t l IH]; intro i; cbn [resolve_types]; repeat first [ sv_step | apply sd_resolve | apply IH ]. Qed.
  Lemma sd_load_contents f a : good (load_contents f p md a).
  Proof.
    unfold load_contents. repeat first [ sv_step | apply sd_load_types | apply sd_resolve_types | apply sd_load_interface_impl | apply sd_resolve_method ].
  Qed.
End Loader.

Lemma sd_drop_on_error a m : good m -> good (drop_on_error a m).
Proof. intros H s Hs. unfold drop_on_error. specialize (H s Hs). destruct (m s); try exact H; try (split; exact Logic.I); exact Logic.I. Qed.

Section Files.
  Variables (p : profile) (fs : file_system).
  Hypothesis Fs : forall d f data, fs d f = File data -> slice_ok data.

  Lemma sd_load_data : forall fuel data, slice_ok data -> good (load_data fuel p fs data).
  Proof.
    induction fuel as [|f IH]; intros data Hd; cbn [load_data]; [apply sd_nofuel|].
    apply (sd_bind _ parts_fit); [apply sd_lift; now apply sd_read_metadata|intros md Hm].
    sv_step; [sv|]. sv_step; [sv|]. sv_step.
    { apply sd_iter_m. intro r. sv_step; [sv|]. sv_step; [sv|]. destruct (loaded _ _ _); [sv|]. sv_step; [sv|].
      destruct (fs _ _) as [| |d] eqn:E; [sv|sv|]. sv_step; [|sv]. apply IH. exact (Fs _ _ _ E). }
    sv_step; [now apply sd_load_method_refs|]. sv_step; [now apply sd_load_type_refs|]. sv_step; [sv|].
    apply sd_drop_on_error. now apply sd_load_contents.
  Qed.
  Lemma sd_load_path fuel path : good (load_path fuel p fs path).
  Proof.
    unfold load_path. destruct (fs _ _) as [| |d] eqn:E; [sv|sv|]. apply sd_load_data. exact (Fs _ _ _ E).
  Qed.
  Lemma sd_load_assembly fuel n : good (load_assembly fuel p fs n).
  Proof. unfold load_assembly. repeat first [ sv_step | apply sd_load_path ]. Qed.
End Files.

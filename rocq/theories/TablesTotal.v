(** The table reader never panics, whatever the bytes. *)
From Coq Require Import NArith String List Bool Lia.
From Coq.Strings Require Import Byte.
From Verif Require Import Base BinaryReader ParseSpec BaseFacts ReaderFacts Tables.
Import ListNotations.
Open Scope N_scope.

(** Started at most [k1] bytes past the end, [m] returns; a value leaves the cursor at most
    [k2] bytes past the end. *)
Definition calm {A} (k1 : N) (m : M reader A) (k2 : N) : Prop :=
  forall r, slice_ok (rdata r) -> rpos r <= len (rdata r) + k1 ->
    match m r with
    | Ok _ r' => rdata r' = rdata r /\ rpos r' <= len (rdata r) + k2
    | Err _ r' => rdata r' = rdata r
    | _ => False
    end.

Lemma calm_bind {A B} k1 k2 k3 (m : M reader A) (f : A -> M reader B) :
  calm k1 m k2 -> (forall a, calm k2 (f a) k3) -> calm k1 (bind m f) k3.
Proof.
  intros Hm Hf r Hs Hp. specialize (Hm r Hs Hp). unfold bind.
  destruct (m r) as [a r'|e r'| | |]; try exact Hm. destruct Hm as [Hd Hp'].
  specialize (Hf a r'). rewrite Hd in Hf. specialize (Hf Hs Hp').
  destruct (f a r') as [b r''|e r''| | |]; try exact Hf.
Qed.

Lemma calm_ret {A} k (a : A) : calm k (ret a) k.
Proof. intros r Hs Hp. cbn. split; [reflexivity|exact Hp]. Qed.

Lemma calm_fail {A} k k2 e : calm k (@fail reader A e) k2.
Proof. intros r Hs Hp. reflexivity. Qed.

Lemma calm_ok_or {A} k (o : option A) e : calm k (ok_or o e) k.
Proof. destruct o; [apply calm_ret|apply calm_fail]. Qed.

Lemma calm_weaken {A} k1 k1' k2 (m : M reader A) : calm k1 m k2 -> k1' <= k1 -> calm k1' m k2.
Proof. intros H L r Hs Hp. apply H; [exact Hs|lia]. Qed.

Lemma calm_read p k n : k < 2 ^ 32 -> n < 2 ^ 32 -> calm k (read p n) k.
Proof.
  intros Hk Hn r Hs Hp. unfold slice_ok in Hs. rewrite pow63 in Hs. rewrite pow32 in *.
  destruct (N.le_gt_cases (rpos r + n) (len (rdata r))) as [L|L].
  - rewrite read_ok by assumption. cbn. split; [reflexivity|lia].
  - rewrite read_none; [|exact L|rewrite pow64; lia]. split; [reflexivity|exact Hp].
Qed.

Lemma calm_rd p k n e : k < 2 ^ 32 -> n < 2 ^ 32 -> calm k (rd p n e) 0.
Proof.
  intros Hk Hn r Hs Hp. unfold slice_ok in Hs. unfold rd, bind. rewrite pow63 in Hs. rewrite pow32 in *.
  destruct (N.le_gt_cases (rpos r + n) (len (rdata r))) as [L|L].
  - rewrite read_ok by assumption. cbn. split; [reflexivity|lia].
  - rewrite read_none; [|exact L|rewrite pow64; lia]. reflexivity.
Qed.

Lemma calm_advance p k n : k < 2 ^ 32 -> n < 2 ^ 32 -> calm k (advance p n) (k + n).
Proof.
  intros Hk Hn r Hs Hp. unfold slice_ok in Hs. rewrite pow63 in Hs. rewrite pow32 in *.
  rewrite advance_ok by (rewrite pow64; lia). cbn. split; [reflexivity|lia].
Qed.

Lemma calm_read_array p k sz cnt : k < 2 ^ 32 -> cnt * sz < 2 ^ 32 -> calm k (read_array p sz cnt) k.
Proof.
  intros Hk Hn r Hs Hp. unfold slice_ok in Hs. rewrite pow63 in Hs. rewrite pow32 in *.
  destruct (N.le_gt_cases (rpos r + cnt * sz) (len (rdata r))) as [L|L].
  - rewrite read_array_ok by assumption. cbn. split; [reflexivity|lia].
  - rewrite read_array_none; [split; [reflexivity|exact Hp]| rewrite ?pow64 ..]; lia.
Qed.

Lemma calm_repeat {A} n (m : M reader A) : calm 0 m 0 -> calm 0 (repeat_m n m) 0.
Proof.
  intro H. induction n as [|n IH]; cbn [repeat_m]; [apply calm_ret|].
  eapply calm_bind; [exact H|intro x]. eapply calm_bind; [exact IH|intro xs]. apply calm_ret.
Qed.

Lemma calm_index p k wide : k < 2 ^ 32 -> calm k (read_index p wide) 0.
Proof. intro H. unfold read_index. destruct wide; apply calm_rd; try exact H; reflexivity. Qed.

Lemma calm_coded p k wide mask f e : k < 2 ^ 32 -> calm k (read_coded p wide mask f e) 0.
Proof.
  intro H. unfold read_coded. eapply calm_bind; [apply calm_index; exact H|intro d].
  destruct (f _); [apply calm_ret|apply calm_fail].
Qed.

Ltac calm_step :=
  match goal with
  | |- calm _ (ret _) _ => apply calm_ret
  | |- calm _ (bind (advance _ _) _) _ => eapply calm_bind; [apply calm_advance; reflexivity|intro]
  | |- calm _ (bind (read _ _) _) _ => eapply calm_bind; [apply calm_read; reflexivity|intro]
  | |- calm _ (bind (read_array _ _ _) _) _ => eapply calm_bind; [apply calm_read_array|intro]
  | |- calm _ (bind (rd _ _ _) _) _ => eapply calm_bind; [apply calm_rd; reflexivity|intro]
  | |- calm _ (bind (attr _) _) _ => eapply calm_bind; [apply calm_ok_or|intro]
  | |- calm _ (bind (ok_or _ _) _) _ => eapply calm_bind; [apply calm_ok_or|intro]
  | |- calm _ (bind _ _) _ => eapply calm_bind; [first [apply calm_index; reflexivity|apply calm_coded; reflexivity]|intro]
  end.

Lemma calm_module p E : calm 0 (read_module p E) 0.
Proof. unfold read_module. repeat calm_step. Qed.
Lemma calm_type_ref p E : calm 0 (read_type_ref p E) 0.
Proof. unfold read_type_ref. repeat calm_step. Qed.
Lemma calm_type_def p E : calm 0 (read_type_def p E) 0.
Proof. unfold read_type_def. repeat calm_step. Qed.
Lemma calm_field p E : calm 0 (read_field p E) 0.
Proof. unfold read_field. repeat calm_step. Qed.
Lemma calm_method_def p E : calm 0 (read_method_def p E) 0.
Proof. unfold read_method_def. repeat calm_step. Qed.
Lemma calm_param p E : calm 0 (read_param p E) 0.
Proof. unfold read_param. repeat calm_step. Qed.
Lemma calm_interface_impl p E : calm 0 (read_interface_impl p E) 0.
Proof. unfold read_interface_impl. repeat calm_step. Qed.
Lemma calm_member_ref p E : calm 0 (read_member_ref p E) 0.
Proof. unfold read_member_ref. repeat calm_step. Qed.
Lemma calm_constant p E : calm 0 (read_constant p E) 0.
Proof. unfold read_constant. repeat calm_step. Qed.
Lemma calm_custom_attribute p E : calm 0 (read_custom_attribute p E) 0.
Proof. unfold read_custom_attribute. repeat calm_step. Qed.
Lemma calm_field_marshal p E : calm 0 (read_field_marshal p E) 0.
Proof. unfold read_field_marshal. repeat calm_step. Qed.
Lemma calm_decl_security p E : calm 0 (read_decl_security p E) 0.
Proof. unfold read_decl_security. repeat calm_step. Qed.
Lemma calm_class_layout p E : calm 0 (read_class_layout p E) 0.
Proof. unfold read_class_layout. repeat calm_step. Qed.
Lemma calm_field_layout p E : calm 0 (read_field_layout p E) 0.
Proof. unfold read_field_layout. repeat calm_step. Qed.
Lemma calm_standalone_sig p E : calm 0 (read_standalone_sig p E) 0.
Proof. unfold read_standalone_sig. repeat calm_step. Qed.
Lemma calm_event_map p E : calm 0 (read_event_map p E) 0.
Proof. unfold read_event_map. repeat calm_step. Qed.
Lemma calm_event p E : calm 0 (read_event p E) 0.
Proof. unfold read_event. repeat calm_step. Qed.
Lemma calm_property_map p E : calm 0 (read_property_map p E) 0.
Proof. unfold read_property_map. repeat calm_step. Qed.
Lemma calm_property p E : calm 0 (read_property p E) 0.
Proof. unfold read_property. repeat calm_step. Qed.
Lemma calm_method_semantics p E : calm 0 (read_method_semantics p E) 0.
Proof. unfold read_method_semantics. repeat calm_step. Qed.
Lemma calm_method_impl p E : calm 0 (read_method_impl p E) 0.
Proof. unfold read_method_impl. repeat calm_step. Qed.
Lemma calm_module_ref p E : calm 0 (read_module_ref p E) 0.
Proof. unfold read_module_ref. repeat calm_step. Qed.
Lemma calm_type_spec p E : calm 0 (read_type_spec p E) 0.
Proof. unfold read_type_spec. repeat calm_step. Qed.
Lemma calm_impl_map p E : calm 0 (read_impl_map p E) 0.
Proof. unfold read_impl_map. repeat calm_step. Qed.
Lemma calm_field_rva p E : calm 0 (read_field_rva p E) 0.
Proof. unfold read_field_rva. repeat calm_step. Qed.
Lemma calm_assembly p E : calm 0 (read_assembly p E) 0.
Proof. unfold read_assembly. repeat calm_step. Qed.
Lemma calm_assembly_processor p E : calm 0 (read_assembly_processor p E) 0.
Proof. unfold read_assembly_processor. repeat calm_step. Qed.
Lemma calm_assembly_os p E : calm 0 (read_assembly_os p E) 0.
Proof. unfold read_assembly_os. repeat calm_step. Qed.
Lemma calm_assembly_ref p E : calm 0 (read_assembly_ref p E) 0.
Proof. unfold read_assembly_ref. repeat calm_step. Qed.
Lemma calm_assembly_ref_processor p E : calm 0 (read_assembly_ref_processor p E) 0.
Proof. unfold read_assembly_ref_processor. repeat calm_step. Qed.
Lemma calm_assembly_ref_os p E : calm 0 (read_assembly_ref_os p E) 0.
Proof. unfold read_assembly_ref_os. repeat calm_step. Qed.
Lemma calm_file p E : calm 0 (read_file p E) 0.
Proof. unfold read_file. repeat calm_step. Qed.
Lemma calm_exported_type p E : calm 0 (read_exported_type p E) 0.
Proof. unfold read_exported_type. repeat calm_step. Qed.
Lemma calm_manifest_resource p E : calm 0 (read_manifest_resource p E) 0.
Proof. unfold read_manifest_resource. repeat calm_step. Qed.
Lemma calm_nested_class p E : calm 0 (read_nested_class p E) 0.
Proof. unfold read_nested_class. repeat calm_step. Qed.
Lemma calm_generic_param p E : calm 0 (read_generic_param p E) 0.
Proof. unfold read_generic_param. repeat calm_step. Qed.
Lemma calm_method_spec p E : calm 0 (read_method_spec p E) 0.
Proof. unfold read_method_spec. repeat calm_step. Qed.
Lemma calm_generic_param_constraint p E : calm 0 (read_generic_param_constraint p E) 0.
Proof. unfold read_generic_param_constraint. repeat calm_step. Qed.

Lemma calm_tables p E : calm 0 (read_tables p E) 0.
Proof.
  unfold read_tables.
  eapply calm_bind; [apply calm_repeat, calm_module|intro].
  eapply calm_bind; [apply calm_repeat, calm_type_ref|intro].
  eapply calm_bind; [apply calm_repeat, calm_type_def|intro].
  eapply calm_bind; [apply calm_repeat, calm_field|intro].
  eapply calm_bind; [apply calm_repeat, calm_method_def|intro].
  eapply calm_bind; [apply calm_repeat, calm_param|intro].
  eapply calm_bind; [apply calm_repeat, calm_interface_impl|intro].
  eapply calm_bind; [apply calm_repeat, calm_member_ref|intro].
  eapply calm_bind; [apply calm_repeat, calm_constant|intro].
  eapply calm_bind; [apply calm_repeat, calm_custom_attribute|intro].
  eapply calm_bind; [apply calm_repeat, calm_field_marshal|intro].
  eapply calm_bind; [apply calm_repeat, calm_decl_security|intro].
  eapply calm_bind; [apply calm_repeat, calm_class_layout|intro].
  eapply calm_bind; [apply calm_repeat, calm_field_layout|intro].
  eapply calm_bind; [apply calm_repeat, calm_standalone_sig|intro].
  eapply calm_bind; [apply calm_repeat, calm_event_map|intro].
  eapply calm_bind; [apply calm_repeat, calm_event|intro].
  eapply calm_bind; [apply calm_repeat, calm_property_map|intro].
  eapply calm_bind; [apply calm_repeat, calm_property|intro].
  eapply calm_bind; [apply calm_repeat, calm_method_semantics|intro].
  eapply calm_bind; [apply calm_repeat, calm_method_impl|intro].
  eapply calm_bind; [apply calm_repeat, calm_module_ref|intro].
  eapply calm_bind; [apply calm_repeat, calm_type_spec|intro].
  eapply calm_bind; [apply calm_repeat, calm_impl_map|intro].
  eapply calm_bind; [apply calm_repeat, calm_field_rva|intro].
  eapply calm_bind; [apply calm_repeat, calm_assembly|intro].
  eapply calm_bind; [apply calm_repeat, calm_assembly_processor|intro].
  eapply calm_bind; [apply calm_repeat, calm_assembly_os|intro].
  eapply calm_bind; [apply calm_repeat, calm_assembly_ref|intro].
  eapply calm_bind; [apply calm_repeat, calm_assembly_ref_processor|intro].
  eapply calm_bind; [apply calm_repeat, calm_assembly_ref_os|intro].
  eapply calm_bind; [apply calm_repeat, calm_file|intro].
  eapply calm_bind; [apply calm_repeat, calm_exported_type|intro].
  eapply calm_bind; [apply calm_repeat, calm_manifest_resource|intro].
  eapply calm_bind; [apply calm_repeat, calm_nested_class|intro].
  eapply calm_bind; [apply calm_repeat, calm_generic_param|intro].
  eapply calm_bind; [apply calm_repeat, calm_method_spec|intro].
  eapply calm_bind; [apply calm_repeat, calm_generic_param_constraint|intro].
  apply calm_ret.
Qed.

Lemma count_ones_bound present i n : count_ones present i n <= N.of_nat n.
Proof.
  revert i. induction n as [|n IH]; intro i; cbn [count_ones]; [lia|].
  specialize (IH (i + 1)). destruct (N.testbit present i); lia.
Qed.

Lemma calm_stream p : calm 0 (read_table_stream p) 0.
Proof.
  unfold read_table_stream. cbn zeta. do 6 calm_step.
  eapply calm_bind.
  { apply calm_read_array; [reflexivity|].
    match goal with |- count_ones ?x 0 64 * 4 < _ => pose proof (count_ones_bound x 0 64) as B end.
    rewrite pow32. lia. }
  intro. calm_step. apply calm_tables.
Qed.

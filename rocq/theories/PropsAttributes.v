(** Property C28: attribute words. *)
From Coq Require Import NArith String List Bool Lia.
From Verif Require Import Base Attributes SpecAttributes AttributesProofs.
Import ListNotations.
Open Scope N_scope.

(** The [_word] relations of [SpecAttributes] state which bits mean what (ECMA-335 II.23.1).
    Each decoder accepts exactly the words that mean something and returns what they mean;
    every other word is an error ([None]). *)

Theorem C28_type_attributes : forall raw a, type_attributes_from_raw raw = Some a <-> type_attributes_word raw a.
Proof. exact type_attributes_spec. Qed.
Print Assumptions C28_type_attributes.

Theorem C28_field_attributes : forall raw a, field_attributes_from_raw raw = Some a <-> field_attributes_word raw a.
Proof. exact field_attributes_spec. Qed.
Print Assumptions C28_field_attributes.

Theorem C28_method_impl_attributes : forall raw a, method_impl_attributes_from_raw raw = Some a <-> method_impl_attributes_word raw a.
Proof. exact method_impl_attributes_spec. Qed.
Print Assumptions C28_method_impl_attributes.

Theorem C28_method_attributes : forall raw a, method_attributes_from_raw raw = Some a <-> method_attributes_word raw a.
Proof. exact method_attributes_spec. Qed.
Print Assumptions C28_method_attributes.

Theorem C28_pinvoke_attributes : forall raw a, pinvoke_attributes_from_raw raw = Some a <-> pinvoke_attributes_word raw a.
Proof. exact pinvoke_attributes_spec. Qed.
Print Assumptions C28_pinvoke_attributes.

Theorem C28_generic_param_attributes : forall raw a, generic_param_attributes_from_raw raw = Some a <-> generic_param_attributes_word raw a.
Proof. exact generic_param_attributes_spec. Qed.
Print Assumptions C28_generic_param_attributes.

(** Words in which every combination of bits is meaningful. *)

Theorem C28_param_attributes : forall raw a, param_attributes_from_raw raw = a <-> param_attributes_word raw a.
Proof. exact param_attributes_spec. Qed.
Print Assumptions C28_param_attributes.

Theorem C28_event_attributes : forall raw a, event_attributes_from_raw raw = a <-> event_attributes_word raw a.
Proof. exact event_attributes_spec. Qed.
Print Assumptions C28_event_attributes.

Theorem C28_property_attributes : forall raw a, property_attributes_from_raw raw = a <-> property_attributes_word raw a.
Proof. exact property_attributes_spec. Qed.
Print Assumptions C28_property_attributes.

Theorem C28_assembly_flags : forall raw a, assembly_flags_from_raw raw = a <-> assembly_flags_word raw a.
Proof. exact assembly_flags_spec. Qed.
Print Assumptions C28_assembly_flags.

(** Plain enumerations. *)

Theorem C28_hash_algorithm : forall raw a, hash_algorithm_from_raw raw = Some a <-> raw = hash_algorithm_code a.
Proof. exact hash_algorithm_spec. Qed.
Print Assumptions C28_hash_algorithm.

Theorem C28_method_semantics : forall raw a, method_semantics_from_raw raw = Some a <-> raw = method_semantics_code a.
Proof. exact method_semantics_spec. Qed.
Print Assumptions C28_method_semantics.

Theorem C28_constant_type : forall raw a, constant_type_from_raw raw = Some a <-> raw = constant_type_code a.
Proof. exact constant_type_spec. Qed.
Print Assumptions C28_constant_type.

(** Concrete words. *)
Example C28_ex_type : exists a, type_attributes_from_raw 0x100181 = Some a /\
  type_attributes_word 0x100181 a /\ ta_is_abstract a = true /\ ta_before_field_init a = true.
Proof.
  destruct (type_attributes_from_raw 0x100181) as [a|] eqn:E; [|discriminate E].
  exists a. split; [reflexivity|]. split; [apply type_attributes_spec; exact E|].
  vm_compute in E. injection E as <-. split; reflexivity.
Qed.
Example C28_ex_rejected : field_attributes_from_raw 7 = None /\ forall a, ~ field_attributes_word 7 a.
Proof.
  split; [reflexivity|]. intros a H. apply field_attributes_spec in H. discriminate H.
Qed.
Example C28_ex_method : exists a, method_attributes_from_raw 0x1886 = Some a /\ ma_special_name a = true /\ ma_is_static a = false.
Proof. eexists. split; [reflexivity|]. split; reflexivity. Qed.
Example C28_ex_others :
  (exists a, method_impl_attributes_from_raw 0x1000 = Some a /\ mi_internal_call a = true) /\
  (exists a, pinvoke_attributes_from_raw 0x146 = Some a) /\
  (exists a, generic_param_attributes_from_raw 0x12 = Some a) /\
  pa_out (param_attributes_from_raw 2) = true /\
  (exists a, hash_algorithm_from_raw 0x8004 = Some a) /\ hash_algorithm_from_raw 1 = None /\
  (exists a, method_semantics_from_raw 2 = Some a) /\ (exists a, constant_type_from_raw 8 = Some a).
Proof. repeat split; try (eexists; split; reflexivity); try (eexists; reflexivity). Qed.

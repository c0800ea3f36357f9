(** ECMA-335 II.23.1: the meaning of attribute words, stated by bit numbers and field values.
    Independent of the masks used by the code. *)
From Coq Require Import NArith List Bool.
From Verif Require Import Base Attributes.
Open Scope N_scope.

(** The [n]-bit field of [raw] starting at bit [lo]. *)
Definition bits (raw lo n : N) : N := (raw / 2 ^ lo) mod 2 ^ n.

(** Bit [k] of [raw] is set exactly when [b] holds. *)
Definition flag (raw k : N) (b : bool) : Prop := bits raw k 1 = if b then 1 else 0.

(** II.23.1.15, TypeAttributes. *)
Definition type_visibility_code v : N := match v with
  | TvNonPublic => 0 | TvPublic => 1 | TvNestedPublic => 2 | TvNestedPrivate => 3
  | TvNestedProtected => 4 | TvNestedInternal => 5 | TvNestedPrivateProtected => 6
  | TvNestedProtectedInternal => 7 end.
Definition type_layout_code v : N := match v with TlAuto => 0 | TlSequential => 1 | TlExplicit => 2 end.
Definition type_semantics_code v : N := match v with TsClass => 0 | TsInterface => 1 end.
Definition type_format_code v : N := match v with TfAnsi => 0 | TfUnicode => 1 | TfAuto => 2 | TfCustom => 3 end.

Definition type_attributes_word (raw : N) (a : type_attributes) : Prop :=
  bits raw 0 3 = type_visibility_code (ta_visibility a) /\
  bits raw 3 2 = type_layout_code (ta_layout a) /\
  bits raw 5 1 = type_semantics_code (ta_semantics a) /\
  bits raw 16 2 = type_format_code (ta_string_format a) /\
  flag raw 7 (ta_is_abstract a) /\ flag raw 8 (ta_sealed a) /\ flag raw 10 (ta_special_name a) /\
  flag raw 12 (ta_imported a) /\ flag raw 13 (ta_serialisable a) /\
  flag raw 20 (ta_before_field_init a) /\ flag raw 11 (ta_rt_special_name a) /\
  flag raw 18 (ta_has_security a) /\ flag raw 21 (ta_is_type_forwarder a).

(** II.23.1.5 and II.23.1.10: member access. *)
Definition member_visibility_code v : N := match v with
  | MvCompilerControlled => 0 | MvPrivate => 1 | MvPrivateProtected => 2 | MvInternal => 3
  | MvProtected => 4 | MvProtectedInternal => 5 | MvPublic => 6 end.

(** II.23.1.5, FieldAttributes. *)
Definition field_attributes_word (raw : N) (a : field_attributes) : Prop :=
  bits raw 0 3 = member_visibility_code (fa_visibility a) /\
  flag raw 4 (fa_is_static a) /\ flag raw 5 (fa_readonly a) /\ flag raw 6 (fa_is_const a) /\
  flag raw 7 (fa_not_serialised a) /\ flag raw 9 (fa_special_name a) /\
  flag raw 13 (fa_pinvoke_impl a) /\ flag raw 10 (fa_rt_special_name a) /\
  flag raw 12 (fa_has_field_marshal a) /\ flag raw 15 (fa_has_default a) /\
  flag raw 8 (fa_has_field_rva a).

(** II.23.1.11, MethodImplAttributes. *)
Definition code_type_code v : N := match v with McIL => 0 | McNative => 1 | McOPTIL => 2 | McRuntime => 3 end.
Definition method_impl_attributes_word (raw : N) (a : method_impl_attributes) : Prop :=
  bits raw 0 2 = code_type_code (mi_code_type a) /\
  flag raw 2 (negb (mi_managed a)) /\ flag raw 4 (mi_forward_ref a) /\
  flag raw 7 (mi_preserve_sig a) /\ flag raw 12 (mi_internal_call a) /\
  flag raw 5 (mi_synchronised a) /\ flag raw 3 (mi_no_inlining a) /\
  flag raw 6 (mi_no_optimisation a).

(** II.23.1.10, MethodAttributes; bit 8 set means a new vtable slot. *)
Definition method_attributes_word (raw : N) (a : method_attributes) : Prop :=
  bits raw 0 3 = member_visibility_code (ma_visibility a) /\
  flag raw 4 (ma_is_static a) /\ flag raw 5 (ma_is_final a) /\ flag raw 6 (ma_is_virtual a) /\
  flag raw 7 (ma_hide_by_sig a) /\ flag raw 8 (negb (ma_reuse_vtable_slot a)) /\
  flag raw 9 (ma_strict a) /\ flag raw 10 (ma_is_abstract a) /\ flag raw 11 (ma_special_name a) /\
  flag raw 13 (ma_pinvoke_impl a) /\ flag raw 3 (ma_unmanaged_export a) /\
  flag raw 12 (ma_rt_special_name a) /\ flag raw 14 (ma_has_security a) /\
  flag raw 15 (ma_require_sec_object a).

(** II.23.1.13, ParamAttributes. *)
Definition param_attributes_word (raw : N) (a : param_attributes) : Prop :=
  flag raw 0 (pa_in a) /\ flag raw 1 (pa_out a) /\ flag raw 4 (pa_optional a) /\
  flag raw 12 (pa_has_default a) /\ flag raw 13 (pa_has_field_marshal a).

(** II.23.1.4, EventAttributes. *)
Definition event_attributes_word (raw : N) (a : event_attributes) : Prop :=
  flag raw 9 (ea_special_name a) /\ flag raw 10 (ea_rt_special_name a).

(** II.23.1.14, PropertyAttributes. *)
Definition property_attributes_word (raw : N) (a : property_attributes) : Prop :=
  flag raw 9 (pr_special_name a) /\ flag raw 10 (pr_rt_special_name a) /\
  flag raw 12 (pr_has_default a).

(** II.23.1.8, PInvokeAttributes. *)
Definition charset_code v : N := match v with CsUnspecified => 0 | CsAnsi => 1 | CsUnicode => 2 | CsAuto => 3 end.
Definition calling_convention_code v : N := match v with
  | CcDefault => 1 | CcCDecl => 2 | CcStdcall => 3 | CcThiscall => 4 | CcFastcall => 5 end.
Definition pinvoke_attributes_word (raw : N) (a : pinvoke_attributes) : Prop :=
  flag raw 0 (pi_no_mangle a) /\ bits raw 1 2 = charset_code (pi_charset a) /\
  flag raw 6 (pi_supports_last_error a) /\
  bits raw 8 3 = calling_convention_code (pi_calling_convention a).

(** II.23.1.7, GenericParamAttributes. *)
Definition variance_code v : N := match v with VaNone => 0 | VaCovariant => 1 | VaContravariant => 2 end.
Definition generic_param_attributes_word (raw : N) (a : generic_param_attributes) : Prop :=
  bits raw 0 2 = variance_code (ga_variance a) /\ flag raw 2 (ga_reference_type a) /\
  flag raw 3 (ga_value_type a) /\ flag raw 4 (ga_default_constructor a).

(** II.23.1.2, AssemblyFlags. *)
Definition assembly_flags_word (raw : N) (a : assembly_flags) : Prop :=
  flag raw 0 (af_public_key a) /\ flag raw 8 (af_retargetable a) /\
  flag raw 14 (af_disable_jit_compiler_optimiser a) /\
  flag raw 15 (af_enable_jit_compiler_tracking a).

(** II.23.1.1, AssemblyHashAlgorithm. *)
Definition hash_algorithm_code v : N := match v with HaNone => 0 | HaMd5 => 32771 | HaSha1 => 32772 end.

(** II.23.1.12, MethodSemanticsAttributes. *)
Definition method_semantics_code v : N := match v with
  | MsSetter => 1 | MsGetter => 2 | MsOther => 4 | MsAdd => 8 | MsRemove => 16 | MsFire => 32 end.

(** II.22.9: constant types are element types; a null reference has type CLASS (0x12). *)
Definition constant_type_code v : N := match v with
  | CtBool => 2 | CtChar => 3 | CtSByte => 4 | CtByte => 5 | CtShort => 6 | CtUShort => 7
  | CtInt => 8 | CtUInt => 9 | CtLong => 10 | CtULong => 11 | CtFloat => 12 | CtDouble => 13
  | CtString => 14 | CtNull => 18 end.

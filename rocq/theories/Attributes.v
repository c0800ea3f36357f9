(** Model of the attribute words of /repo/clr_lite/src/metadata/tables: the [from_raw]
    functions.  [None] stands for [Err(BadImageFormat(..))]. *)
From Coq Require Import NArith List Bool.
From Verif Require Import Base.
Open Scope N_scope.

(** type_def.rs:112-122. *)
Inductive type_visibility := TvNonPublic | TvPublic | TvNestedPublic | TvNestedPrivate
  | TvNestedProtected | TvNestedInternal | TvNestedPrivateProtected | TvNestedProtectedInternal.
(** type_def.rs:124-129. *)
Inductive type_layout := TlAuto | TlSequential | TlExplicit.
(** type_def.rs:131-135. *)
Inductive type_semantics := TsClass | TsInterface.
(** type_def.rs:137-143. *)
Inductive type_string_format := TfAnsi | TfUnicode | TfAuto | TfCustom.

(** type_def.rs:29-45. *)
Record type_attributes := {
  ta_visibility : type_visibility; ta_layout : type_layout; ta_semantics : type_semantics;
  ta_is_abstract : bool; ta_sealed : bool; ta_special_name : bool; ta_imported : bool;
  ta_serialisable : bool; ta_string_format : type_string_format; ta_before_field_init : bool;
  ta_rt_special_name : bool; ta_has_security : bool; ta_is_type_forwarder : bool }.

(** type_def.rs:50-65: the visibility field. *)
Definition type_visibility_from_raw (raw : N) : option type_visibility :=
  match N.land raw 0x7 with
  | 0x0 => Some TvNonPublic | 0x1 => Some TvPublic | 0x2 => Some TvNestedPublic
  | 0x3 => Some TvNestedPrivate | 0x4 => Some TvNestedProtected
  | 0x5 => Some TvNestedInternal | 0x6 => Some TvNestedPrivateProtected
  | 0x7 => Some TvNestedProtectedInternal | _ => None
  end.
(** type_def.rs:66-76: the layout field. *)
Definition type_layout_from_raw (raw : N) : option type_layout :=
  match N.land raw 0x18 with
  | 0x0 => Some TlAuto | 0x8 => Some TlSequential | 0x10 => Some TlExplicit | _ => None
  end.
(** type_def.rs:77-86: the class semantics field. *)
Definition type_semantics_from_raw (raw : N) : option type_semantics :=
  match N.land raw 0x20 with 0x0 => Some TsClass | 0x20 => Some TsInterface | _ => None end.
(** type_def.rs:92-103: the string format field. *)
Definition type_string_format_from_raw (raw : N) : option type_string_format :=
  match N.land raw 0x30000 with
  | 0x0 => Some TfAnsi | 0x10000 => Some TfUnicode | 0x20000 => Some TfAuto
  | 0x30000 => Some TfCustom | _ => None
  end.

(** type_def.rs:48-109, [TypeAttributes::from_raw]. *)
Definition type_attributes_from_raw (raw : N) : option type_attributes :=
  match type_visibility_from_raw raw with None => None | Some vis =>
  match type_layout_from_raw raw with None => None | Some lay =>
  match type_semantics_from_raw raw with None => None | Some sem =>
  match type_string_format_from_raw raw with None => None | Some fmt =>
  Some {| ta_visibility := vis; ta_layout := lay; ta_semantics := sem;
          ta_is_abstract := has raw 0x80; ta_sealed := has raw 0x100;
          ta_special_name := has raw 0x400; ta_imported := has raw 0x1000;
          ta_serialisable := has raw 0x2000; ta_string_format := fmt;
          ta_before_field_init := has raw 0x100000; ta_rt_special_name := has raw 0x800;
          ta_has_security := has raw 0x40000; ta_is_type_forwarder := has raw 0x200000 |}
  end end end end.

(** field.rs:74-83 and method_def.rs:147-156 (the two enums have the same members). *)
Inductive member_visibility := MvCompilerControlled | MvPrivate | MvPrivateProtected | MvInternal
  | MvProtected | MvProtectedInternal | MvPublic.

(** field.rs:45-59 and method_def.rs:106-120: the same [match raw & 0x7] in both. *)
Definition member_visibility_from_raw (raw : N) : option member_visibility :=
  match N.land raw 0x7 with
  | 0x0 => Some MvCompilerControlled | 0x1 => Some MvPrivate | 0x2 => Some MvPrivateProtected
  | 0x3 => Some MvInternal | 0x4 => Some MvProtected | 0x5 => Some MvProtectedInternal
  | 0x6 => Some MvPublic | _ => None
  end.

(** field.rs:26-40. *)
Record field_attributes := {
  fa_visibility : member_visibility; fa_is_static : bool; fa_readonly : bool; fa_is_const : bool;
  fa_not_serialised : bool; fa_special_name : bool; fa_pinvoke_impl : bool;
  fa_rt_special_name : bool; fa_has_field_marshal : bool; fa_has_default : bool;
  fa_has_field_rva : bool }.

(** field.rs:43-71, [FieldAttributes::from_raw]. *)
Definition field_attributes_from_raw (raw : N) : option field_attributes :=
  match member_visibility_from_raw raw with
  | None => None
  | Some vis =>
  Some {| fa_visibility := vis; fa_is_static := has raw 0x10; fa_readonly := has raw 0x20;
          fa_is_const := has raw 0x40; fa_not_serialised := has raw 0x80;
          fa_special_name := has raw 0x200; fa_pinvoke_impl := has raw 0x2000;
          fa_rt_special_name := has raw 0x400; fa_has_field_marshal := has raw 0x1000;
          fa_has_default := has raw 0x8000; fa_has_field_rva := has raw 0x100 |}
  end.

(** method_def.rs:76-82. *)
Inductive method_code_type := McIL | McNative | McOPTIL | McRuntime.

(** method_def.rs:28-39. *)
Record method_impl_attributes := {
  mi_code_type : method_code_type; mi_managed : bool; mi_forward_ref : bool;
  mi_preserve_sig : bool; mi_internal_call : bool; mi_synchronised : bool;
  mi_no_inlining : bool; mi_no_optimisation : bool }.

(** method_def.rs:44-55: the code type field. *)
Definition code_type_from_raw (raw : N) : option method_code_type :=
  match N.land raw 0x3 with
  | 0x0 => Some McIL | 0x1 => Some McNative | 0x2 => Some McOPTIL | 0x3 => Some McRuntime
  | _ => None
  end.
(** method_def.rs:56-65: the managed field. *)
Definition managed_from_raw (raw : N) : option bool :=
  match N.land raw 0x4 with 0x0 => Some true | 0x4 => Some false | _ => None end.

(** method_def.rs:42-73, [MethodImplAttributes::from_raw]. *)
Definition method_impl_attributes_from_raw (raw : N) : option method_impl_attributes :=
  match code_type_from_raw raw with None => None | Some ct =>
  match managed_from_raw raw with None => None | Some man =>
  Some {| mi_code_type := ct; mi_managed := man; mi_forward_ref := has raw 0x10;
          mi_preserve_sig := has raw 0x80; mi_internal_call := has raw 0x1000;
          mi_synchronised := has raw 0x20; mi_no_inlining := has raw 0x8;
          mi_no_optimisation := has raw 0x40 |}
  end end.

(** method_def.rs:84-101. *)
Record method_attributes := {
  ma_visibility : member_visibility; ma_is_static : bool; ma_is_final : bool;
  ma_is_virtual : bool; ma_hide_by_sig : bool; ma_reuse_vtable_slot : bool; ma_strict : bool;
  ma_is_abstract : bool; ma_special_name : bool; ma_pinvoke_impl : bool;
  ma_unmanaged_export : bool; ma_rt_special_name : bool; ma_has_security : bool;
  ma_require_sec_object : bool }.

(** method_def.rs:125-134: the vtable layout field. *)
Definition reuse_slot_from_raw (raw : N) : option bool :=
  match N.land raw 0x100 with 0x0 => Some true | 0x100 => Some false | _ => None end.

(** method_def.rs:104-144, [MethodAttributes::from_raw]. *)
Definition method_attributes_from_raw (raw : N) : option method_attributes :=
  match member_visibility_from_raw raw with None => None | Some vis =>
  match reuse_slot_from_raw raw with None => None | Some reuse =>
  Some {| ma_visibility := vis; ma_is_static := has raw 0x10; ma_is_final := has raw 0x20;
          ma_is_virtual := has raw 0x40; ma_hide_by_sig := has raw 0x80;
          ma_reuse_vtable_slot := reuse; ma_strict := has raw 0x200;
          ma_is_abstract := has raw 0x400; ma_special_name := has raw 0x800;
          ma_pinvoke_impl := has raw 0x2000; ma_unmanaged_export := has raw 0x8;
          ma_rt_special_name := has raw 0x1000; ma_has_security := has raw 0x4000;
          ma_require_sec_object := has raw 0x8000 |}
  end end.

(** param.rs:26-34. *)
Record param_attributes := { pa_in : bool; pa_out : bool; pa_optional : bool;
  pa_has_default : bool; pa_has_field_marshal : bool }.

(** param.rs:37-45, [ParamAttributes::from_raw]. *)
Definition param_attributes_from_raw (raw : N) : param_attributes :=
  {| pa_in := has raw 0x1; pa_out := has raw 0x2; pa_optional := has raw 0x10;
     pa_has_default := has raw 0x1000; pa_has_field_marshal := has raw 0x2000 |}.

(** event.rs:26-31. *)
Record event_attributes := { ea_special_name : bool; ea_rt_special_name : bool }.
(** event.rs:34-39, [EventAttributes::from_raw] (never fails). *)
Definition event_attributes_from_raw (raw : N) : event_attributes :=
  {| ea_special_name := has raw 0x200; ea_rt_special_name := has raw 0x400 |}.

(** property.rs:26-32. *)
Record property_attributes := { pr_special_name : bool; pr_rt_special_name : bool;
  pr_has_default : bool }.
(** property.rs:35-41, [PropertyAttributes::from_raw] (never fails). *)
Definition property_attributes_from_raw (raw : N) : property_attributes :=
  {| pr_special_name := has raw 0x200; pr_rt_special_name := has raw 0x400;
     pr_has_default := has raw 0x1000 |}.

(** impl_map.rs:68-74. *)
Inductive charset := CsUnspecified | CsAnsi | CsUnicode | CsAuto.
(** impl_map.rs:76-83. *)
Inductive calling_convention := CcDefault | CcCDecl | CcStdcall | CcThiscall | CcFastcall.
(** impl_map.rs:26-32. *)
Record pinvoke_attributes := { pi_no_mangle : bool; pi_charset : charset;
  pi_supports_last_error : bool; pi_calling_convention : calling_convention }.

(** impl_map.rs:38-49: the character set field. *)
Definition charset_from_raw (raw : N) : option charset :=
  match N.land raw 0x6 with
  | 0x0 => Some CsUnspecified | 0x2 => Some CsAnsi | 0x4 => Some CsUnicode | 0x6 => Some CsAuto
  | _ => None
  end.
(** impl_map.rs:51-63: the calling convention field. *)
Definition calling_convention_from_raw (raw : N) : option calling_convention :=
  match N.land raw 0x700 with
  | 0x100 => Some CcDefault | 0x200 => Some CcCDecl | 0x300 => Some CcStdcall
  | 0x400 => Some CcThiscall | 0x500 => Some CcFastcall | _ => None
  end.

(** impl_map.rs:35-65, [PInvokeAttributes::from_raw]. *)
Definition pinvoke_attributes_from_raw (raw : N) : option pinvoke_attributes :=
  match charset_from_raw raw with None => None | Some cs =>
  match calling_convention_from_raw raw with None => None | Some cc =>
  Some {| pi_no_mangle := has raw 0x1; pi_charset := cs; pi_supports_last_error := has raw 0x40;
          pi_calling_convention := cc |}
  end end.

(** generic_param.rs:57-62. *)
Inductive variance := VaNone | VaCovariant | VaContravariant.
(** generic_param.rs:27-34. *)
Record generic_param_attributes := { ga_variance : variance; ga_reference_type : bool;
  ga_value_type : bool; ga_default_constructor : bool }.

(** generic_param.rs:39-49: the variance field. *)
Definition variance_from_raw (raw : N) : option variance :=
  match N.land raw 0x3 with
  | 0x0 => Some VaNone | 0x1 => Some VaCovariant | 0x2 => Some VaContravariant | _ => None
  end.

(** generic_param.rs:37-54, [GenericParamAttributes::from_raw]. *)
Definition generic_param_attributes_from_raw (raw : N) : option generic_param_attributes :=
  match variance_from_raw raw with None => None | Some v =>
  Some {| ga_variance := v; ga_reference_type := has raw 0x4; ga_value_type := has raw 0x8;
          ga_default_constructor := has raw 0x10 |}
  end.

(** assembly.rs:33-38. *)
Inductive hash_algorithm := HaNone | HaMd5 | HaSha1.
(** assembly.rs:55-64: the match in [Assembly::read_row]. *)
Definition hash_algorithm_from_raw (raw : N) : option hash_algorithm :=
  match raw with 0x0 => Some HaNone | 0x8003 => Some HaMd5 | 0x8004 => Some HaSha1 | _ => None end.

(** assembly.rs:40-47. *)
Record assembly_flags := { af_public_key : bool; af_retargetable : bool;
  af_disable_jit_compiler_optimiser : bool; af_enable_jit_compiler_tracking : bool }.
(** assembly.rs:69-77 and assembly_ref.rs:42-50. *)
Definition assembly_flags_from_raw (raw : N) : assembly_flags :=
  {| af_public_key := has raw 0x1; af_retargetable := has raw 0x100;
     af_disable_jit_compiler_optimiser := has raw 0x4000;
     af_enable_jit_compiler_tracking := has raw 0x8000 |}.

(** method_semantics.rs:26-35. *)
Inductive method_semantics_type := MsSetter | MsGetter | MsOther | MsAdd | MsRemove | MsFire.
(** method_semantics.rs:38-53, [MethodSemanticsType::from_raw]. *)
Definition method_semantics_from_raw (raw : N) : option method_semantics_type :=
  match raw with
  | 0x1 => Some MsSetter | 0x2 => Some MsGetter | 0x4 => Some MsOther | 0x8 => Some MsAdd
  | 0x10 => Some MsRemove | 0x20 => Some MsFire | _ => None
  end.

(** constant.rs:26-44. *)
Inductive constant_type := CtBool | CtChar | CtSByte | CtByte | CtShort | CtUShort | CtInt | CtUInt
  | CtLong | CtULong | CtFloat | CtDouble | CtString | CtNull.
(** constant.rs:47-70, [ConstantType::from_raw]. *)
Definition constant_type_from_raw (raw : N) : option constant_type :=
  match raw with
  | 0x2 => Some CtBool | 0x3 => Some CtChar | 0x4 => Some CtSByte | 0x5 => Some CtByte
  | 0x6 => Some CtShort | 0x7 => Some CtUShort | 0x8 => Some CtInt | 0x9 => Some CtUInt
  | 0xa => Some CtLong | 0xb => Some CtULong | 0xc => Some CtFloat | 0xd => Some CtDouble
  | 0xe => Some CtString | 0x12 => Some CtNull | _ => None
  end.

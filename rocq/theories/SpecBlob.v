(** Specification of blob contents after ECMA-335 II.23.2 and II.23.4, written as encoders.
    Independent of the decoders in Blob.v; only the result types of the API are shared. *)
From Coq Require Import NArith ZArith List Bool.
From Coq.Strings Require Import Byte.
From Verif Require Import Base Tables Blob.
Import ListNotations.
Open Scope N_scope.

(** ** Compressed integers, II.23.2 *)

(** The three storage forms: 7 bits after [0], 14 bits after [10], 29 bits after [110]. *)
Definition form1 (v : N) : list byte := [nb v].
Definition form2 (v : N) : list byte := [nb (0x80 + v / 256); nb (v mod 256)].
Definition form4 (v : N) : list byte :=
  [nb (0xc0 + v / 16777216); nb (v / 65536 mod 256); nb (v / 256 mod 256); nb (v mod 256)].

(** An unsigned number below 2^29 is stored in the shortest form that holds it. *)
Definition compress (v : N) : list byte :=
  if v <? 0x80 then form1 v else if v <? 0x4000 then form2 v else form4 v.

(** Any of the three forms, shortest or not; the 110 lead leaves 29 bits, but the decoder
    also takes the unassigned 111 lead, so the last form is given 30 bits here. *)
Definition some_form (bs : list byte) (v : N) : Prop :=
  (bs = form1 v /\ v < 2 ^ 7) \/ (bs = form2 v /\ v < 2 ^ 14) \/ (bs = form4 v /\ v < 2 ^ 30).

(** Rotation left by one of the two's complement form in [bits] bits (II.23.2, signed). *)
Definition rotated (bits : N) (z : Z) : N :=
  let u := Z.to_N (z mod 2 ^ Z.of_N bits) in
  2 * u mod 2 ^ bits + u / 2 ^ (bits - 1).

(** The number of bits used for a signed number. *)
Definition signed_bits (z : Z) : N :=
  if ((-64 <=? z) && (z <? 64))%Z then 7
  else if ((-8192 <=? z) && (z <? 8192))%Z then 14
  else 29.

(** Signed compressed integers, -2^28 <= z < 2^28. *)
Definition compress_signed (z : Z) : list byte :=
  match signed_bits z with
  | 7 => form1 (rotated 7 z)
  | 14 => form2 (rotated 14 z)
  | _ => form4 (rotated 29 z)
  end.

(** ** Types, II.23.2.8, II.23.2.12 and II.23.2.13 *)

Inductive named_table := InTypeDef | InTypeRef | InTypeSpec.
Definition named_tag (t : named_table) : N :=
  match t with InTypeDef => 0 | InTypeRef => 1 | InTypeSpec => 2 end.
Definition named_ref (t : named_table) (row : N) : row_ref :=
  mkRef (match t with InTypeDef => TTypeDef | InTypeRef => TTypeRef | InTypeSpec => TTypeSpec end)
        row.
(** A type reference: table tag in the two low bits, row number above. *)
Definition enc_named (t : named_table) (row : N) : list byte := compress (4 * row + named_tag t).

(** An array shape; lower bounds are signed. *)
Record shape := { rank : N; sizes : list N; lower : list Z }.

Definition enc_shape (s : shape) : list byte :=
  compress (rank s) ++
  compress (len (sizes s)) ++ concat (map compress (sizes s)) ++
  compress (len (lower s)) ++ concat (map compress_signed (lower s)).

Definition shape_ok (s : shape) : Prop :=
  rank s < 2 ^ 29 /\ len (sizes s) < 2 ^ 29 /\ Forall (fun n => n < 2 ^ 29) (sizes s) /\
  len (lower s) < 2 ^ 29 /\ Forall (fun z => (- 2 ^ 28 <= z < 2 ^ 28)%Z) (lower s).

(** Types without components, with their codes (II.23.1.16). *)
Inductive simple :=
| PVoid | PBoolean | PChar | PI1 | PU1 | PI2 | PU2 | PI4 | PU4 | PI8 | PU8 | PR4 | PR8
| PString | PTypedByRef | PI | PU | PObject | PSentinel.
Definition simple_code (s : simple) : byte :=
  match s with
  | PVoid => x01 | PBoolean => x02 | PChar => x03 | PI1 => x04 | PU1 => x05 | PI2 => x06
  | PU2 => x07 | PI4 => x08 | PU4 => x09 | PI8 => x0a | PU8 => x0b | PR4 => x0c | PR8 => x0d
  | PString => x0e | PTypedByRef => x16 | PI => x18 | PU => x19 | PObject => x1c
  | PSentinel => x41
  end.
Definition simple_api (s : simple) : element_type :=
  match s with
  | PVoid => EVoid | PBoolean => EBool | PChar => EChar | PI1 => ESByte | PU1 => EByte
  | PI2 => EShort | PU2 => EUShort | PI4 => EInt | PU4 => EUInt | PI8 => ELong | PU8 => EULong
  | PR4 => EFloat | PR8 => EDouble | PString => EString | PTypedByRef => ETypedReference
  | PI => EIntPtr | PU => EUIntPtr | PObject => EObject | PSentinel => EVarargSentinel
  end.

(** The type grammar, with function pointers and custom modifiers. *)
Inductive sig_type :=
| TSimple (s : simple)
| TPtr (t : sig_type)
| TByRef (t : sig_type)
| TValue (tab : named_table) (row : N)
| TClass (tab : named_table) (row : N)
| TVar (n : N)
| TMVar (n : N)
| TArray (t : sig_type) (s : shape)
| TGenericInst (t : sig_type) (args : list sig_type)
| TSzArray (t : sig_type)
| TFnPtr (conv : byte) (result : sig_type) (params : list sig_type)
| TModified (required : bool) (tab : named_table) (row : N) (t : sig_type).

Fixpoint enc_type (t : sig_type) : list byte :=
  match t with
  | TSimple s => [simple_code s]
  | TPtr t => x0f :: enc_type t
  | TByRef t => x10 :: enc_type t
  | TValue tab row => x11 :: enc_named tab row
  | TClass tab row => x12 :: enc_named tab row
  | TVar n => x13 :: compress n
  | TMVar n => x1e :: compress n
  | TArray t s => x14 :: enc_type t ++ enc_shape s
  | TGenericInst t args =>
      x15 :: enc_type t ++ compress (len args) ++ concat (map enc_type args)
  | TSzArray t => x1d :: enc_type t
  | TFnPtr conv result params =>
      x1b :: conv :: compress (len params) ++ enc_type result ++ concat (map enc_type params)
  | TModified required tab row t =>
      (if required then x1f else x20) :: enc_named tab row ++ enc_type t
  end.

Definition named_ok (row : N) : Prop := 4 * row + 3 < 2 ^ 29.

(** Every number is in the range of the format. *)
Fixpoint type_ok (t : sig_type) : Prop :=
  match t with
  | TSimple _ => True
  | TPtr t | TByRef t | TSzArray t => type_ok t
  | TValue _ row | TClass _ row => named_ok row
  | TVar n | TMVar n => n < 2 ^ 29
  | TArray t s => type_ok t /\ shape_ok s
  | TGenericInst t args => type_ok t /\ len args < 2 ^ 29 /\ fold_right and True (map type_ok args)
  | TFnPtr _ result params =>
      type_ok result /\ len params < 2 ^ 29 /\ fold_right and True (map type_ok params)
  | TModified _ _ row t => named_ok row /\ type_ok t
  end.

(** No function pointer and no custom modifier anywhere inside. *)
Fixpoint plain (t : sig_type) : bool :=
  match t with
  | TSimple _ | TValue _ _ | TClass _ _ | TVar _ | TMVar _ => true
  | TPtr t | TByRef t | TSzArray t | TArray t _ => plain t
  | TGenericInst t args => plain t && forallb plain args
  | TFnPtr _ _ _ | TModified _ _ _ _ => false
  end.

(** Every lower bound of every array inside is zero. *)
Fixpoint zero_based (t : sig_type) : bool :=
  match t with
  | TSimple _ | TValue _ _ | TClass _ _ | TVar _ | TMVar _ => true
  | TPtr t | TByRef t | TSzArray t | TModified _ _ _ t => zero_based t
  | TArray t s => zero_based t && forallb (Z.eqb 0) (lower s)
  | TGenericInst t args => zero_based t && forallb zero_based args
  | TFnPtr _ result params => zero_based result && forallb zero_based params
  end.

(** The value of the API that stands for a shape. *)
Definition api_shape (s : shape) : array_shape :=
  {| as_rank := rank s; as_sizes := sizes s; as_lower_bounds := map Z.to_N (lower s) |}.

(** The value of the API that stands for a type ([EFnPtr] carries no information). *)
Fixpoint api_type (t : sig_type) : element_type :=
  match t with
  | TSimple s => simple_api s
  | TPtr t => EPointer (api_type t)
  | TByRef t => EReference (api_type t)
  | TValue tab row => EValueType (named_ref tab row)
  | TClass tab row => EClass (named_ref tab row)
  | TVar n => ETypeGenericParam n
  | TMVar n => EMethodGenericParam n
  | TArray t s => EArray (api_type t) (api_shape s)
  | TGenericInst t args => EGeneric (api_type t) (map api_type args)
  | TSzArray t => ESzArray (api_type t)
  | TFnPtr _ _ _ => EFnPtr
  | TModified _ _ _ t => api_type t
  end.

(** ** Signatures *)

(** Method signature, II.23.2.1 and II.23.2.3.  [extra] lists the variable arguments of a
    call site, stored after SENTINEL and not counted separately: the parameter count covers
    them, SENTINEL itself is not counted. *)
Record method_sig := {
  ms_has_this : bool; ms_explicit : bool; ms_is_vararg : bool; ms_generic : option N;
  ms_result : sig_type; ms_args : list sig_type; ms_extra : list sig_type }.

Definition flag (b : bool) (v : N) : N := if b then v else 0.

Definition enc_method_sig (m : method_sig) : list byte :=
  nb (flag (ms_has_this m) 0x20 + flag (ms_explicit m) 0x40 + flag (ms_is_vararg m) 0x5 +
      match ms_generic m with Some _ => 0x10 | None => 0 end) ::
  match ms_generic m with Some n => compress n | None => [] end ++
  compress (len (ms_args m) + len (ms_extra m)) ++
  enc_type (ms_result m) ++
  concat (map enc_type (ms_args m)) ++
  match ms_extra m with
  | [] => []
  | _ => simple_code PSentinel :: concat (map enc_type (ms_extra m))
  end.

Definition method_sig_ok (m : method_sig) : Prop :=
  match ms_generic m with Some n => n < 2 ^ 29 | None => True end /\
  len (ms_args m) + len (ms_extra m) < 2 ^ 29 /\ type_ok (ms_result m) /\
  Forall type_ok (ms_args m) /\ Forall type_ok (ms_extra m).

Definition api_method_sig (m : method_sig) : method_signature := {|
  sg_instance := ms_has_this m; sg_explicit_this := ms_explicit m;
  sg_vararg := ms_is_vararg m;
  sg_generic_param_count := match ms_generic m with Some n => n | None => 0 end;
  sg_return_type := api_type (ms_result m);
  sg_params := map api_type (ms_args m ++ ms_extra m) |}.

(** Field signature, II.23.2.4. *)
Definition enc_field_sig (t : sig_type) : list byte := x06 :: enc_type t.

(** Property signature, II.23.2.5. *)
Definition enc_property_sig (has_this : bool) (result : sig_type) (args : list sig_type) :
  list byte :=
  nb (0x8 + flag has_this 0x20) :: compress (len args) ++ enc_type result ++
  concat (map enc_type args).

(** Method instantiation, II.23.2.15. *)
Definition enc_method_inst (args : list sig_type) : list byte :=
  x0a :: compress (len args) ++ concat (map enc_type args).

(** ** Marshalling descriptors, II.23.4 *)

Definition native_code (s : marshal_scalar) : byte :=
  match s with
  | MsBool => x02 | MsSByte => x03 | MsByte => x04 | MsShort => x05 | MsUShort => x06
  | MsInt => x07 | MsUInt => x08 | MsLong => x09 | MsULong => x0a | MsFloat => x0b
  | MsDouble => x0c | MsString => x14 | MsWString => x15 | MsNativeInt => x1f
  | MsNativeUInt => x20 | MsFunctionPointer => x26 | MsUnknown => x50
  end.

(** ARRAY element [ParamNum [NumElem]]; zero means "not given". *)
Inductive marshal :=
| NScalar (s : marshal_scalar)
| NArray (s : marshal_scalar)
| NArrayParam (s : marshal_scalar) (param : N)
| NArrayParamNum (s : marshal_scalar) (param num : N).

Definition enc_marshal (m : marshal) : list byte :=
  match m with
  | NScalar s => [native_code s]
  | NArray s => [x2a; native_code s]
  | NArrayParam s a => [x2a; native_code s] ++ compress a
  | NArrayParamNum s a b => [x2a; native_code s] ++ compress a ++ compress b
  end.
Definition given (n : N) : option N := if n =? 0 then None else Some n.
Definition api_marshal (m : marshal) : marshal_descriptor :=
  match m with
  | NScalar s => MdScalar s
  | NArray s => MdArray s None None
  | NArrayParam s a => MdArray s (given a) None
  | NArrayParamNum s a b => MdArray s (given a) (given b)
  end.
Definition marshal_ok (m : marshal) : Prop :=
  match m with
  | NScalar _ | NArray _ => True
  | NArrayParam _ a => a < 2 ^ 29
  | NArrayParamNum _ a b => a < 2 ^ 29 /\ b < 2 ^ 29
  end.

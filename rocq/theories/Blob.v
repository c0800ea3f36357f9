(** Model of blobs and signatures: /repo/clr_lite/src/metadata/blob/*.rs and
    /repo/clr_lite/src/metadata/{blob_heap,strings_heap,metadata_token}.rs.  File names below
    are relative to /repo/clr_lite/src/metadata.  Not modelled: the memory reserved by
    [Vec::with_capacity], the depth of the native stack, and the alignment of the [u16] slice
    returned by [read_utf16_str]. *)
From Coq Require Import NArith String List Bool.
From Coq.Strings Require Import Byte.
From Verif Require Import Base Utf BinaryReader Tables.
Import ListNotations.
Open Scope N_scope.

(** ** metadata_token.rs *)

(** metadata_token.rs:9-11, [MetadataToken::new]; [as u32] truncates. *)
Definition token_new (index : N) (t : table) : N :=
  N.lor (index mod 2 ^ 32) (N.shiftl (table_id t) 24 mod 2 ^ 32).
(** metadata_token.rs:13-15. *)
Definition token_table (tok : N) : N := N.shiftr (N.land tok 0xff000000) 24.
(** metadata_token.rs:17-19. *)
Definition token_index (tok : N) : N := N.land tok 0xffffff.

(** ** strings_heap.rs *)

(** strings_heap.rs:4-7; the cache is a [HashMap] from index to text. *)
Record strings_heap := mkStrings { sh_data : list byte; sh_cache : list (N * list byte) }.

(** strings_heap.rs:13-18. *)
Definition strings_new (d : list byte) : strings_heap := mkStrings d [].

(** strings_heap.rs:20-34, [StringsHeap::get].  The value is computed before the cache entry is
    looked at; the early returns of [?] leave the cache as it was. *)
Definition strings_get (index : N) : M strings_heap (option (list byte)) :=
  fun h =>
    if len (sh_data h) <? index then Ok None h
    else match nul_position (skipn (N.to_nat index) (sh_data h)) with
         | None => Ok None h
         | Some k =>
             let text := sub_list index k (sh_data h) in
             if utf8_valid text then
               match map_get N.eqb index (sh_cache h) with
               | Some cached => Ok (Some cached) h
               | None => Ok (Some text) (mkStrings (sh_data h) (map_put index text (sh_cache h)))
               end
             else Ok None h
         end.

(** ** blob/blob_reader.rs *)

(** blob_reader.rs:36-46. *)
Definition blob_eof : string := "Unexpected EOF".

(** [u32::from_be(self.read::<u32>()?)] and the like: the bytes read as a big-endian number. *)
Definition rd_be (p : profile) (n : N) (e : string) : M reader N :=
  o <- read p n ;; match o with Some d => ret (be_dec d) | None => fail e end.

(** blob_reader.rs:48-57, [read_compressed_u32]. *)
Definition read_compressed_u32 (p : profile) : M reader N :=
  x <- pk p 1 blob_eof ;;
  if N.land x 0xc0 =? 0xc0 then
    v <- rd_be p 4 blob_eof ;;
    match u_sub p 32 v 0xc0000000 with
    | Some n => ret n
    | None => panic "attempt to subtract with overflow"
    end
  else if N.land x 0x80 =? 0x80 then
    v <- rd_be p 2 blob_eof ;;
    match u_sub p 32 v 0x8000 with
    | Some n => ret n
    | None => panic "attempt to subtract with overflow"
    end
  else rd p 1 blob_eof.

(** blob_reader.rs:59-65, [read_utf16_str]: the code units. *)
Definition read_utf16_str (p : profile) : M reader (list N) :=
  fun r =>
    let n := len (rdata r) / 2 in
    (o <- read_array p 2 n ;;
     match o with
     | Some d => ret (map le_dec (chunks 2 (N.to_nat n) d))
     | None => fail "Unable to read UTF16 string from blob"
     end) r.

(** blob_reader.rs:24-34, [BlobReader::new]. *)
Definition blob_reader_new (p : profile) (data : list byte) : res unit reader :=
  match read_compressed_u32 p (mkReader data 0) with
  | Ok length r =>
      if len data <? rpos r + length then Panic "slice index out of range"
      else Ok (mkReader (sub_list (rpos r) length data) 0) tt
  | Err _ _ => Err "Couldn't read blob length" tt
  | Panic w => Panic w
  | Ub w => Ub w
  | NoFuel => NoFuel
  end.

(** blob_heap.rs:15-17, [BlobHeap::new_reader]. *)
Definition blob_heap_reader (p : profile) (heap : list byte) (h : N) : res unit reader :=
  if len heap <? h then Panic "slice index out of range"
  else blob_reader_new p (skipn (N.to_nat h) heap).

(** ** Signatures *)

(** array_shape.rs:5-9. *)
Record array_shape := { as_rank : N; as_sizes : list N; as_lower_bounds : list N }.

(** array_shape.rs:12-31, [read_array_shape]. *)
Definition read_array_shape (p : profile) : M reader array_shape :=
  rank <- read_compressed_u32 p ;;
  count <- read_compressed_u32 p ;;
  sizes <- repeat_m (N.to_nat count) (read_compressed_u32 p) ;;
  count <- read_compressed_u32 p ;;
  lower_bounds <- repeat_m (N.to_nat count) (read_compressed_u32 p) ;;
  ret {| as_rank := rank; as_sizes := sizes; as_lower_bounds := lower_bounds |}.

(** type_def_or_ref.rs:7-22, [read_type_def_or_ref]. *)
Definition read_type_def_or_ref (p : profile) : M reader row_ref :=
  val <- read_compressed_u32 p ;;
  let tag := N.land val 3 in
  let index := N.shiftr (N.ldiff val 3) 2 in
  match tag with
  | 0 => ret (mkRef TTypeDef index)
  | 1 => ret (mkRef TTypeRef index)
  | 2 => ret (mkRef TTypeSpec index)
  | _ => fail "Invalid TypeDefOrRef tag"
  end.

(** element_type.rs:6-44, [ElementType]. *)
Inductive element_type :=
| EVoid | EBool | EChar | ESByte | EByte | EShort | EUShort | EInt | EUInt | ELong | EULong
| EFloat | EDouble | EString
| EPointer (t : element_type)
| EReference (t : element_type)
| EValueType (h : row_ref)
| EClass (h : row_ref)
| ETypeGenericParam (n : N)
| EArray (t : element_type) (shape : array_shape)
| EGeneric (t : element_type) (args : list element_type)
| ETypedReference | EIntPtr | EUIntPtr | EFnPtr | EObject
| ESzArray (t : element_type)
| EMethodGenericParam (n : N)
| EVarargSentinel.

(** element_type.rs:47-98, [read_element_type]; [fuel] bounds the depth of the recursion. *)
Fixpoint element_type_f (fuel : nat) (p : profile) : M reader element_type :=
  match fuel with
  | O => nofuel
  | S f =>
      b <- rd p 1 blob_eof ;;
      match b with
      | 0x1 => ret EVoid
      | 0x2 => ret EBool
      | 0x3 => ret EChar
      | 0x4 => ret ESByte
      | 0x5 => ret EByte
      | 0x6 => ret EShort
      | 0x7 => ret EUShort
      | 0x8 => ret EInt
      | 0x9 => ret EUInt
      | 0xa => ret ELong
      | 0xb => ret EULong
      | 0xc => ret EFloat
      | 0xd => ret EDouble
      | 0xe => ret EString
      | 0xf => t <- element_type_f f p ;; ret (EPointer t)
      | 0x10 => t <- element_type_f f p ;; ret (EReference t)
      | 0x11 => h <- read_type_def_or_ref p ;; ret (EValueType h)
      | 0x12 => h <- read_type_def_or_ref p ;; ret (EClass h)
      | 0x13 => n <- read_compressed_u32 p ;; ret (ETypeGenericParam n)
      | 0x14 => t <- element_type_f f p ;; shape <- read_array_shape p ;; ret (EArray t shape)
      | 0x15 =>
          t <- element_type_f f p ;;
          count <- read_compressed_u32 p ;;
          args <- repeat_m (N.to_nat count) (element_type_f f p) ;;
          ret (EGeneric t args)
      | 0x16 => ret ETypedReference
      | 0x18 => ret EIntPtr
      | 0x19 => ret EUIntPtr
      | 0x1c => ret EObject
      | 0x1d => t <- element_type_f f p ;; ret (ESzArray t)
      | 0x1e => n <- read_compressed_u32 p ;; ret (EMethodGenericParam n)
      | 0x41 => ret EVarargSentinel
      | _ => fail "Invalid ELEMENT_TYPE"
      end
  end.

(** The whole function.  The recursion depth never exceeds the number of bytes (each call
    reads one), so this much fuel never runs out (proved in BlobProofs). *)
Definition read_element_type (p : profile) : M reader element_type :=
  fun r => element_type_f (S (List.length (rdata r))) p r.

(** field_signature.rs:5-7 and 10-27, [read_field_signature]; the result is the type. *)
Definition read_field_signature (p : profile) : M reader element_type :=
  b <- rd p 1 blob_eof ;;
  if negb (b =? 0x6) then fail "Expected 0x6 at the start of field signature"
  else
    b <- pk p 1 blob_eof ;;
    if (b =? 0x1f) || (b =? 0x20) then panic "not implemented: ELEMENT_TYPE_CMOD"
    else read_element_type p.

(** method_signature.rs:5-12. *)
Record method_signature := {
  sg_instance : bool; sg_explicit_this : bool; sg_vararg : bool; sg_generic_param_count : N;
  sg_return_type : element_type; sg_params : list element_type }.

(** method_signature.rs:15-48, [read_method_signature]. *)
Definition read_method_signature (p : profile) : M reader method_signature :=
  next <- rd p 1 blob_eof ;;
  let instance := has next 0x20 in
  let explicit_this := has next 0x40 in
  let vararg := has next 0x5 in
  let generic := has next 0x10 in
  generic_param_count <- (if generic then read_compressed_u32 p else ret 0) ;;
  param_count <- read_compressed_u32 p ;;
  return_type <- read_element_type p ;;
  params <- repeat_m (N.to_nat param_count) (read_element_type p) ;;
  ret {| sg_instance := instance; sg_explicit_this := explicit_this; sg_vararg := vararg;
         sg_generic_param_count := generic_param_count; sg_return_type := return_type;
         sg_params := params |}.

(** property_signature.rs:5-9. *)
Record property_signature := {
  ps_instance : bool; ps_return_type : element_type; ps_params : list element_type }.

(** property_signature.rs:12-38, [read_property_signature]. *)
Definition read_property_signature (p : profile) : M reader property_signature :=
  next <- rd p 1 blob_eof ;;
  if negb (has next 0x8) then fail "Invalid property signature"
  else
    let instance := has next 0x20 in
    param_count <- read_compressed_u32 p ;;
    return_type <- read_element_type p ;;
    params <- repeat_m (N.to_nat param_count) (read_element_type p) ;;
    ret {| ps_instance := instance; ps_return_type := return_type; ps_params := params |}.

(** method_spec.rs:5-7 and 10-29, [read_method_spec]; the result is the argument list. *)
Definition read_method_spec_sig (p : profile) : M reader (list element_type) :=
  b <- rd p 1 blob_eof ;;
  if negb (b =? 0xa) then fail "Expected 0xa at the start of MethodSpec"
  else
    count <- read_compressed_u32 p ;;
    repeat_m (N.to_nat count) (read_element_type p).

(** type_spec.rs:10-14, [read_type_spec]. *)
Definition read_type_spec_sig (p : profile) : M reader element_type := read_element_type p.

(** marshalling_descriptor.rs:5-23. *)
Inductive marshal_scalar :=
| MsBool | MsSByte | MsByte | MsShort | MsUShort | MsInt | MsUInt | MsLong | MsULong
| MsFloat | MsDouble | MsString | MsWString | MsNativeInt | MsNativeUInt | MsFunctionPointer
| MsUnknown.

(** marshalling_descriptor.rs:25-33. *)
Inductive marshal_descriptor :=
| MdScalar (s : marshal_scalar)
| MdArray (element_type : marshal_scalar) (size_param_num num_elements : option N).

(** marshalling_descriptor.rs:36-65. *)
Definition read_marshal_scalar (p : profile) : M reader marshal_scalar :=
  d <- rd p 1 blob_eof ;;
  match d with
  | 0x2 => ret MsBool
  | 0x3 => ret MsSByte
  | 0x4 => ret MsByte
  | 0x5 => ret MsShort
  | 0x6 => ret MsUShort
  | 0x7 => ret MsInt
  | 0x8 => ret MsUInt
  | 0x9 => ret MsLong
  | 0xa => ret MsULong
  | 0xb => ret MsFloat
  | 0xc => ret MsDouble
  | 0x14 => ret MsString
  | 0x15 => ret MsWString
  | 0x1f => ret MsNativeInt
  | 0x20 => ret MsNativeUInt
  | 0x26 => ret MsFunctionPointer
  | 0x50 => ret MsUnknown
  | _ => fail "Invalid marshalling descriptor"
  end.

(** [if let Ok(x) = m { .. } else { None }]. *)
Definition try_m {S A} (m : M S A) : M S (option A) :=
  fun s => match m s with
           | Ok a s' => Ok (Some a) s'
           | Err _ s' => Ok None s'
           | Panic w => Panic w
           | Ub w => Ub w
           | NoFuel => NoFuel
           end.

(** marshalling_descriptor.rs:75-97: zero and absent both give [None]. *)
Definition some_nonzero (o : option N) : option N :=
  match o with Some 0 => None | _ => o end.

(** marshalling_descriptor.rs:67-106. *)
Definition read_marshal_descriptor (p : profile) : M reader marshal_descriptor :=
  b <- pk p 1 blob_eof ;;
  if b =? 0x2a then
    advance p 1 ;;;
    element_type <- read_marshal_scalar p ;;
    size_param_num <- try_m (read_compressed_u32 p) ;;
    num_elements <- try_m (read_compressed_u32 p) ;;
    ret (MdArray element_type (some_nonzero size_param_num) (some_nonzero num_elements))
  else
    s <- read_marshal_scalar p ;;
    ret (MdScalar s).

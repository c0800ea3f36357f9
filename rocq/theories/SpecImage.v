(** Programs in images: what the tables and heaps of an image have to hold for the functions of a
    program (SpecCalls), in terms of ECMA-335 partition II. *)
From Coq Require Import NArith ZArith String List Bool.
From Coq.Strings Require Import Byte.
From Verif Require Import Base ParseSpec Attributes Tables Blob Metadata Runtime SpecUtf SpecBlob SpecRuntime SpecMetadata SpecStack SpecHeap
  SpecLang SpecCalls SpecBytes SpecBody SpecLoader.
Import ListNotations.
Open Scope N_scope.

(** static int f(int, ..., int), or static void *)
Definition int32_type : sig_type := TSimple PI4.
Definition signature_of (f : function) : method_sig := {|
  ms_has_this := false; ms_explicit := false; ms_is_vararg := false; ms_generic := None;
  ms_result := if fn_result f then int32_type else TSimple PVoid;
  ms_args := repeat int32_type (fn_params f); ms_extra := [] |}.

Section Image.
  (** The image, the functions, and the rows of the MethodDef table that they have. *)
  Variables (md : metadata) (P : list function) (ks : list N).

  (** III.1.9 and II.24.2.4: four bytes, the table or heap in the last one.  Texts are in the heap of
      user strings, with a byte after the text that says something about its characters. *)
  Definition image_tokens : tokens := mkTokens
    (fun bs g => exists k, nth_error ks g = Some k /\ bs = le_enc 4 (0x06000000 + k))
    (fun bs text => exists h last, bs = le_enc 4 (0x70000000 + h) /\ h < 2 ^ 24 /\ Forall scalar text /\
       2 * len (utf16_encode text) + 1 < 2 ^ 29 /\
       bytes_at (m_user_strings md) h
         (compress (2 * len (utf16_encode text) + 1) ++ units_le (utf16_encode text) ++ [last]))
    (fun bs => exists k row, bs = le_enc 4 (0x0a000000 + k) /\ k < 2 ^ 24 /\
       row_of (tb_member_ref (m_tables md)) k row /\
       heap_text md (mr_name row) (bytes_of_string "Write") /\ parent_of md row (bytes_of_string "System.Console")).

  (** Row [k] is that of a static method that is function [f], compiled: its body is in either format
      and its local variables are integers. *)
  Definition image_function (f : function) (k : N) : Prop :=
    exists row code, row_of (tb_method_def (m_tables md)) k row /\
      ma_is_static (me_attributes row) = true /\ ma_is_abstract (me_attributes row) = false /\
      mi_internal_call (me_impl_attributes row) = false /\
      heap_blob md (me_signature row) (enc_method_sig (signature_of f)) /\
      com_code P image_tokens (fn_result f) (fn_body f) code /\
      (fn_locals f = 0%nat /\ len code < 64 /\ image_at md (me_rva row) (enc_tiny code) \/
       exists init more mx tok, mx < 2 ^ 16 /\ len code < 2 ^ 32 /\
         image_at md (me_rva row) (enc_fat init more mx tok code) /\ locals_at md tok (repeat int32_type (fn_locals f))).

  Record program_image : Prop := {
    pr_addressable : addressable md /\ slice_ok (m_user_strings md);
    pr_listed : well_listed md;
    pr_refs : forall r, In r (tb_member_ref (m_tables md)) -> ref_table (mr_parent r) = TTypeRef;
    pr_functions : Forall2 image_function P ks }.
End Image.

(** A runtime in which the name System.Console stands for a type whose method Write, the last of that name, is
    the built-in one, with one argument; and in which there are strings. *)
Definition can_print (s : vm) : Prop :=
  (exists ti, In ti (c_types s) /\ ti_full_name ti = bytes_of_string "System.String") /\
  exists t ti m, latest (c_types s) (bytes_of_string "System.Console") t /\ nth_error (c_types s) t = Some ti /\
    last_called mt_name (bytes_of_string "Write") (ti_methods ti) (Some m) /\
    mt_impl m = IInternal ConsoleWrite /\ arguments m = 1%nat.

(** An image with such a type: no type of the same name and no method Write of the type come after it. *)
Definition console_image (md : metadata) : Prop :=
  addressable md /\ well_listed md /\
  exists j k row, row_name md InTypeDef j (bytes_of_string "System.Console") /\
    (forall i, j < i -> ~ row_name md InTypeDef i (bytes_of_string "System.Console")) /\
    belongs (map td_method_list (tb_type_def (m_tables md))) k j /\ row_of (tb_method_def (m_tables md)) k row /\
    heap_text md (me_name row) (bytes_of_string "Write") /\
    (forall i r, k < i -> belongs (map td_method_list (tb_type_def (m_tables md))) i j -> row_of (tb_method_def (m_tables md)) i r ->
       ~ heap_text md (me_name r) (bytes_of_string "Write")) /\
    ma_is_static (me_attributes row) = true /\ mi_internal_call (me_impl_attributes row) = true /\
    heap_blob md (me_signature row) (enc_method_sig {|
      ms_has_this := false; ms_explicit := false; ms_is_vararg := false; ms_generic := None;
      ms_result := TSimple PVoid; ms_args := [TSimple PString]; ms_extra := [] |}).

(** II.22.2: the name in the first row of the Assembly table. *)
Definition assembly_name (md : metadata) (n : name) : Prop :=
  exists row, row_of (tb_assembly (m_tables md)) 1 row /\ heap_text md (as_name row) n.

(** Specification of method bodies after ECMA-335 II.25.4, and of the names that signatures and
    tokens stand for.  Written as encoders, independent of the loader. *)
From Coq Require Import NArith String List Bool.
From Coq.Strings Require Import Byte.
From Verif Require Import Base Tables Blob Metadata Runtime SpecBytes SpecUtf SpecBlob SpecMetadata SpecRuntime.
Import ListNotations.
Open Scope N_scope.

(** ** Names *)

(** The string heap holds [text] at offset [h]. *)
Definition heap_text (md : metadata) (h : N) (text : name) : Prop :=
  bytes_at (m_strings md) h (text ++ [x00]) /\ ~ In x00 text /\ is_utf8 text.

(** The full name of a type called [n] in the namespace [ns]. *)
Definition qualified (n ns : name) : name :=
  match ns with [] => n | _ => ns ++ bytes_of_string "." ++ n end.

(** Row [row] of the TypeDef or TypeRef table is that of a type with full name [fn]. *)
Inductive row_name (md : metadata) : named_table -> N -> name -> Prop :=
| in_type_def row d n ns :
    1 <= row -> nth_error (tb_type_def (m_tables md)) (N.to_nat (row - 1)) = Some d ->
    heap_text md (td_name d) n -> heap_text md (td_namespace d) ns ->
    row_name md InTypeDef row (qualified n ns)
| in_type_ref row d n ns :
    1 <= row -> nth_error (tb_type_ref (m_tables md)) (N.to_nat (row - 1)) = Some d ->
    heap_text md (tr_name d) n -> heap_text md (tr_namespace d) ns ->
    row_name md InTypeRef row (qualified n ns).

(** The names of the built-in types (II.23.1.16 and the class library). *)
Definition simple_name (s : simple) : option string :=
  match s with
  | PVoid => Some "System.Void" | PBoolean => Some "System.Boolean" | PChar => Some "System.Char"
  | PI1 => Some "System.SByte" | PU1 => Some "System.Byte" | PI2 => Some "System.Int16"
  | PU2 => Some "System.UInt16" | PI4 => Some "System.Int32" | PU4 => Some "System.UInt32"
  | PI8 => Some "System.Int64" | PU8 => Some "System.UInt64" | PR4 => Some "System.Single"
  | PR8 => Some "System.Double" | PString => Some "System.String" | PI => Some "System.IntPtr"
  | PU => Some "System.UIntPtr" | PObject => Some "System.Object"
  | PTypedByRef | PSentinel => None
  end%string.

(** The type [t] of a signature has the full name [n].  Only built-in types, classes, structs
    and vectors of these have one. *)
Inductive type_name (md : metadata) : sig_type -> name -> Prop :=
| name_simple s x : simple_name s = Some x -> type_name md (TSimple s) (bytes_of_string x)
| name_value tab row n : row_name md tab row n -> type_name md (TValue tab row) n
| name_class tab row n : row_name md tab row n -> type_name md (TClass tab row) n
| name_vector t n : type_name md t n -> type_name md (TSzArray t) (n ++ bytes_of_string "[]").

(** A type of that name is registered. *)
Definition known (s : vm) (n : name) : Prop := exists t, In t (c_types s) /\ ti_full_name t = n.

(** The innermost element type of [t] is registered. *)
Fixpoint element_known (md : metadata) (s : vm) (t : sig_type) : Prop :=
  match t with
  | TSzArray t => element_known md s t
  | _ => forall n, type_name md t n -> known s n
  end.

(** How many vector types occur in [t]. *)
Fixpoint vectors (t : sig_type) : N :=
  match t with TSzArray t => vectors t + 1 | _ => 0 end.
Definition sum (l : list N) : N := fold_right N.add 0 l.

(** ** Local variables, II.23.2.6, without PINNED *)

Definition enc_local_sig (ls : list sig_type) : list byte :=
  x07 :: compress (len ls) ++ concat (map enc_type ls).

(** The blob heap holds [b] at offset [h]. *)
Definition heap_blob (md : metadata) (h : N) (b : list byte) : Prop :=
  bytes_at (m_blob md) h (compress (len b) ++ b) /\ len b < 2 ^ 29.

(** The token in a fat header stands for the local variables [ls]. *)
Inductive locals_at (md : metadata) : N -> list sig_type -> Prop :=
| no_locals : locals_at md 0 []
| some_locals row rec ls :
    1 <= row -> row < 2 ^ 24 ->
    nth_error (tb_standalone_sig (m_tables md)) (N.to_nat (row - 1)) = Some rec ->
    heap_blob md (ss_signature rec) (enc_local_sig ls) -> len ls < 2 ^ 29 ->
    locals_at md (0x11000000 + row) ls.

(** ** Method bodies *)

(** II.25.4.2: code of fewer than 64 bytes after one byte. *)
Definition enc_tiny (code : list byte) : list byte := nb (4 * len code + 2) :: code.

(** II.25.4.3: the header, then the code; the size of the header is three words. *)
Definition enc_fat (init more : bool) (max_stack token : N) (code : list byte) : list byte :=
  [nb (3 + flag more 8 + flag init 16); x30] ++ le_enc 2 max_stack ++ le_enc 4 (len code) ++ le_enc 4 token ++ code.

(** ** Exception clauses, II.25.4.6 *)

Inductive eh_kind := EhCatch | EhFilter | EhFinally | EhFault.
Definition eh_code (k : eh_kind) : N :=
  match k with EhCatch => 0 | EhFilter => 1 | EhFinally => 2 | EhFault => 4 end.
Record eh := { eh_is : eh_kind; eh_try_offset : N; eh_try_length : N;
               eh_handler_offset : N; eh_handler_length : N; eh_operand : N }.

Definition enc_small_clause (e : eh) : list byte :=
  le_enc 2 (eh_code (eh_is e)) ++ le_enc 2 (eh_try_offset e) ++ le_enc 1 (eh_try_length e) ++
  le_enc 2 (eh_handler_offset e) ++ le_enc 1 (eh_handler_length e) ++ le_enc 4 (eh_operand e).
Definition enc_fat_clause (e : eh) : list byte :=
  le_enc 4 (eh_code (eh_is e)) ++ le_enc 4 (eh_try_offset e) ++ le_enc 4 (eh_try_length e) ++
  le_enc 4 (eh_handler_offset e) ++ le_enc 4 (eh_handler_length e) ++ le_enc 4 (eh_operand e).

Definition small_clause_ok (e : eh) : Prop :=
  eh_try_offset e < 2 ^ 16 /\ eh_try_length e < 2 ^ 8 /\ eh_handler_offset e < 2 ^ 16 /\
  eh_handler_length e < 2 ^ 8 /\ eh_operand e < 2 ^ 32.
Definition fat_clause_ok (e : eh) : Prop :=
  eh_try_offset e < 2 ^ 32 /\ eh_try_length e < 2 ^ 32 /\ eh_handler_offset e < 2 ^ 32 /\
  eh_handler_length e < 2 ^ 32 /\ eh_operand e < 2 ^ 32.

(** A section of exception clauses; bit 0x80 of the first byte says that another section
    follows. *)
Definition enc_small_section (more : bool) (es : list eh) : list byte :=
  [nb (1 + flag more 0x80); nb (12 * len es + 4); x00; x00] ++ concat (map enc_small_clause es).
Definition enc_fat_section (more : bool) (es : list eh) : list byte :=
  [nb (0x41 + flag more 0x80)] ++ le_enc 3 (24 * len es + 4) ++ concat (map enc_fat_clause es).

(** Either form. *)
Inductive eh_section (more : bool) (es : list eh) : list byte -> Prop :=
| small_section : Forall small_clause_ok es -> 12 * len es + 4 < 2 ^ 8 -> eh_section more es (enc_small_section more es)
| fat_section : Forall fat_clause_ok es -> 24 * len es + 4 < 2 ^ 24 -> eh_section more es (enc_fat_section more es).

(** Fill bytes from position [n] up to the next multiple of four. *)
Definition fill (n : N) (bs : list byte) : Prop := len bs < 4 /\ (n + len bs) mod 4 = 0.

(** The full name of the type caught: the operand is a TypeDef or TypeRef token. *)
Inductive caught (md : metadata) : N -> name -> Prop :=
| caught_def row n : row < 2 ^ 24 -> row_name md InTypeDef row n -> caught md (0x02000000 + row) n
| caught_ref row n : row < 2 ^ 24 -> row_name md InTypeRef row n -> caught md (0x01000000 + row) n.

Definition catch_known (md : metadata) (s : vm) (e : eh) : Prop :=
  eh_is e = EhCatch -> exists n, caught md (eh_operand e) n /\ known s n.

(** The clause of the API that stands for [e] in the runtime [s]. *)
Definition api_kind (k : eh_kind) : clause_kind :=
  match k with EhCatch => CkCatch | EhFilter => CkFilter | EhFinally => CkFinally | EhFault => CkFault end.
Definition stands_for (md : metadata) (s : vm) (e : eh) (c : clause) : Prop :=
  cl_kind c = api_kind (eh_is e) /\
  cl_try_offset c = eh_try_offset e /\ cl_try_length c = eh_try_length e /\
  cl_handler_offset c = eh_handler_offset e /\ cl_handler_length c = eh_handler_length e /\
  match eh_is e with
  | EhCatch => cl_filter c = None /\
      exists t n, cl_catch c = Some t /\ caught md (eh_operand e) n /\ latest (c_types s) n t
  | EhFilter => cl_catch c = None /\ cl_filter c = Some (eh_operand e)
  | _ => cl_catch c = None /\ cl_filter c = None
  end.

(** ** Where bodies are *)

(** The image holds [bs] at the address [rva]. *)
Definition image_at (md : metadata) (rva : N) (bs : list byte) : Prop :=
  exists off, maps_to (m_pe_info md) rva off /\ bytes_at (m_pe_data md) off bs.

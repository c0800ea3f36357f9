(** Where the parts of an image are in memory, and which addresses suit them. *)
From Coq Require Import NArith List Bool.
From Coq.Strings Require Import Byte.
From Verif Require Import Base SpecBlob SpecUtf Attributes Tables SpecTables.
Import ListNotations.
Open Scope N_scope.

(** Consecutive parts, each with its size and its alignment, suit the address [address]: every part starts at
    a multiple of its alignment. *)
Fixpoint suits (address : N) (parts : list (N * N)) : Prop :=
  match parts with
  | [] => True
  | (size, alignment) :: parts' => address mod alignment = 0 /\ suits (address + size) parts'
  end.

(** Numbers have the alignment of their size. *)
Definition number (width : N) : N * N := (width, width).

(** II.22: the widths of the columns of each table. *)
Definition widths (sz : sizes) (t : table) : list N :=
  match t with
  | TModule => [2; heap_width (big_strings sz); heap_width (big_guids sz); heap_width (big_guids sz); heap_width (big_guids sz)]
  | TTypeRef => [coded_width sz KResolutionScope; heap_width (big_strings sz); heap_width (big_strings sz)]
  | TTypeDef => [4; heap_width (big_strings sz); heap_width (big_strings sz); coded_width sz KTypeDefOrRef; index_width sz TField; index_width sz TMethodDef]
  | TField => [2; heap_width (big_strings sz); heap_width (big_blobs sz)]
  | TMethodDef => [4; 2; 2; heap_width (big_strings sz); heap_width (big_blobs sz); index_width sz TParam]
  | TParam => [2; 2; heap_width (big_strings sz)]
  | TInterfaceImpl => [index_width sz TTypeDef; coded_width sz KTypeDefOrRef]
  | TMemberRef => [coded_width sz KMemberRefParent; heap_width (big_strings sz); heap_width (big_blobs sz)]
  | TConstant => [1; 1; coded_width sz KHasConstant; heap_width (big_blobs sz)]
  | TCustomAttribute => [coded_width sz KHasCustomAttribute; coded_width sz KCustomAttributeType; heap_width (big_blobs sz)]
  | TFieldMarshal => [coded_width sz KHasFieldMarshal; heap_width (big_blobs sz)]
  | TDeclSecurity => [2; coded_width sz KHasDeclSecurity; heap_width (big_blobs sz)]
  | TClassLayout => [2; 4; index_width sz TTypeDef]
  | TFieldLayout => [4; index_width sz TField]
  | TStandaloneSig => [heap_width (big_blobs sz)]
  | TEventMap => [index_width sz TTypeDef; index_width sz TEvent]
  | TEvent => [2; heap_width (big_strings sz); coded_width sz KTypeDefOrRef]
  | TPropertyMap => [index_width sz TTypeDef; index_width sz TProperty]
  | TProperty => [2; heap_width (big_strings sz); heap_width (big_blobs sz)]
  | TMethodSemantics => [2; index_width sz TMethodDef; coded_width sz KHasSemantics]
  | TMethodImpl => [index_width sz TTypeDef; coded_width sz KMethodDefOrRef; coded_width sz KMethodDefOrRef]
  | TModuleRef => [heap_width (big_strings sz)]
  | TTypeSpec => [heap_width (big_blobs sz)]
  | TImplMap => [2; coded_width sz KMemberForwarded; heap_width (big_strings sz); index_width sz TModuleRef]
  | TFieldRva => [4; index_width sz TField]
  | TAssembly => [4; 2; 2; 2; 2; 4; heap_width (big_blobs sz); heap_width (big_strings sz); heap_width (big_strings sz)]
  | TAssemblyProcessor => [4]
  | TAssemblyOs => [4; 4; 4]
  | TAssemblyRef => [2; 2; 2; 2; 4; heap_width (big_blobs sz); heap_width (big_strings sz); heap_width (big_strings sz); heap_width (big_blobs sz)]
  | TAssemblyRefProcessor => [4; index_width sz TAssemblyRef]
  | TAssemblyRefOs => [4; 4; 4; index_width sz TAssemblyRef]
  | TFile => [4; heap_width (big_strings sz); heap_width (big_blobs sz)]
  | TExportedType => [4; 4; heap_width (big_strings sz); heap_width (big_strings sz); coded_width sz KImplementation]
  | TManifestResource => [4; 4; heap_width (big_strings sz); coded_width sz KImplementation]
  | TNestedClass => [index_width sz TTypeDef; index_width sz TTypeDef]
  | TGenericParam => [2; 2; coded_width sz KTypeOrMethodDef; heap_width (big_strings sz)]
  | TMethodSpec => [coded_width sz KMethodDefOrRef; heap_width (big_blobs sz)]
  | TGenericParamConstraint => [index_width sz TGenericParam; coded_width sz KTypeDefOrRef]
  end.
Definition row_size (sz : sizes) (t : table) : N := fold_right N.add 0 (widths sz t).

(** The parts of a row. *)
Definition row_parts (sz : sizes) (t : table) : list (N * N) := map number (widths sz t).

(** The parts of all tables of a collection, in the order in which they are stored. *)
Definition tables_parts (sz : sizes) (T : tables) : list (N * N) :=
  flat_map (fun it => flat_map (fun _ => row_parts sz (snd it)) (rows_of T (snd it))) ecma_tables.

(** II.24.2.6: the parts of the whole stream, with [listed] tables in its header: reserved bytes, the heap
    sizes, a reserved byte, the two bit masks, the row counts and the rows. *)
Definition stream_parts (sz : sizes) (listed : N) (T : tables) : list (N * N) :=
  [(6, 1); (1, 1); (1, 1); number 8; number 8; (4 * listed, 4)] ++ tables_parts sz T.

(** All offsets and row numbers are stored in two bytes. *)
Definition narrow (sz : sizes) : Prop :=
  big_strings sz = false /\ big_guids sz = false /\ big_blobs sz = false /\
  (forall t, index_width sz t = 2) /\ (forall k, coded_width sz k = 2).

(** The Unicode scalar values. *)
Definition scalar_value (c : N) : Prop := c < 0xd800 \/ 0xe000 <= c < 0x110000.

(** II.24.2.4: how a literal with the code units [us] lies in the heap of user strings: the number of bytes that
    follow, the code units and a last byte. *)
Definition literal_bytes (us : list N) (last : byte) : list byte :=
  compress (2 * len us + 1) ++ (units_le us ++ [last]).

(** The parts of a literal: the number in 1, 2 or 4 bytes, and the code units. *)
Definition literal_parts (us : list N) : list (N * N) :=
  [number (if len us <? 64 then 1 else if len us <? 8192 then 2 else 4); (2 * len us, 2)].

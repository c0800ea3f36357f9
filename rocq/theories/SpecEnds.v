(** When loading comes to an end: orders on the names of types and on files, along which the size of a
    type and the loading of references go down. *)
From Coq Require Import NArith String List Bool.
From Coq.Strings Require Import Byte.
From Verif Require Import Base ParseSpec BinaryReader Pe Attributes Tables Blob Metadata Runtime Loader SpecBytes SpecUtf SpecPe SpecBlob SpecMetadata SpecRuntime SpecBody SpecTypes SpecLoader SpecLoad.
Import ListNotations.
Open Scope N_scope.

(** The size of a type needs that of its base and those of its fields that are held by value.  An order gives
    every full name a rank, and says which names are those of types that are held by value. *)
Record order := { height : name -> nat; by_value : name -> bool }.

Record order_ok (top : nat) (o : order) : Prop := {
  oo_top : forall n, (height o n <= top)%nat;
  oo_value : by_value o a_value_type = true;
  oo_vectors : forall n, (height o an_array_type < height o (vector_of n))%nat /\
    (by_value o an_array_type = true -> by_value o (vector_of n) = true) }.

(** What a type of full name [fn] may extend, and what its instance fields may be.  The sizes of the built-in
    types are known without looking at their fields. *)
Definition may_extend (o : order) (fn b : name) : Prop :=
  (height o b < height o fn)%nat /\ (by_value o b = true -> by_value o fn = true).
Definition may_hold (o : order) (fn n : name) : Prop :=
  by_value o n = true -> primitive n \/ (height o n < height o fn)%nat.

(** The types that a runtime has go along with the order. *)
Record types_ordered (o : order) (ts : list type_info) : Prop := {
  to_base : forall ti b, In ti ts -> ti_base ti = Some b -> may_extend o (ti_full_name ti) (name_of ts b);
  to_interface : forall ti i, In ti ts -> In i (ti_interfaces ti) -> name_of ts i = a_value_type ->
    by_value o (ti_full_name ti) = true;
  to_field : forall ti f, In ti ts -> In f (ti_fields ti) -> f_static f = false ->
    may_hold o (ti_full_name ti) (name_of ts (f_type f)) }.

(** The signature of a Field row is read as that of a type with full name [n]. *)
Definition field_says (p : profile) (md : metadata) (row : field_row) (n : name) : Prop :=
  exists r r' t, blob_heap_reader p (m_blob md) (fd_signature row) = Ok r tt /\
    read_field_signature p r = Ok (api_type t) r' /\ type_name md t n.
(** The full name of the type of a TypeDef row. *)
Definition defines (md : metadata) (row : type_def_row) (fn : name) : Prop :=
  exists n ns, heap_text md (td_name row) n /\ heap_text md (td_namespace row) ns /\ fn = qualified n ns.

(** The types that an image defines go along with the order. *)
Record image_ordered (p : profile) (o : order) (md : metadata) : Prop := {
  io_base : forall row fn b, In row (tb_type_def (m_tables md)) -> defines md row fn -> extends md row (Some b) ->
    may_extend o fn b;
  io_field : forall j row fn f n, nth_error (tb_type_def (m_tables md)) j = Some row -> defines md row fn ->
    In f (rows_of (map td_field_list (tb_type_def (m_tables md))) j (tb_field (m_tables md))) ->
    fa_is_static (fd_attributes f) = false -> field_says p md f n -> may_hold o fn n;
  io_interface : forall row c tab k, In row (tb_interface_impl (m_tables md)) -> row_name md InTypeDef (ii_class row) c ->
    ii_interface row = named_ref tab k -> row_name md tab k a_value_type -> by_value o c = true }.

(** A set of images: they go along with the order, and the files that they refer to and that are not loaded
    yet are in the set again, on a lower level. *)
Record images_ordered (p : profile) (o : order) (fs : file_system) (s : vm) (D : list byte -> Prop) (level : list byte -> nat) : Prop := {
  im_size : forall data, D data -> slice_ok data;
  im_types : forall data md, D data -> read_metadata p data tt = Ok md tt -> image_ordered p o md;
  im_files : forall data md row n d f x, D data -> read_metadata p data tt = Ok md tt ->
    In row (tb_assembly_ref (m_tables md)) -> heap_text md (ar_name row) n -> ~ loaded_as s n ->
    first_there (fun c => fs (fst c) (snd c) <> Missing) (candidates (c_paths s) n) (d, f) -> fs d f = File x ->
    D x /\ (level x < level data)%nat }.

(** The deepest nesting of calls that loading takes: sizes go down twice, along the fields and along the
    bases, and references go down level by level. *)
Definition depth_needed (top level : nat) : nat := (2 * top + level + 3)%nat.

(** The size of [t] takes that of [u]: it is its base or an instance field holds it by value. *)
Inductive needs (ts : list type_info) (t u : tref) : Prop :=
| needs_base ti : nth_error ts t = Some ti -> (forall k, ~ width ts t k) -> ti_base ti = Some u -> needs ts t u
| needs_field ti f : nth_error ts t = Some ti -> (forall k, ~ width ts t k) -> In f (ti_fields ti) -> f_static f = false ->
    f_type f = u -> value_type ts u -> needs ts t u.

(** Images that go round: the first reference of each that is not loaded leads to another one. *)
Definition leads_to (p : profile) (fs : file_system) (s : vm) (data x : list byte) : Prop :=
  exists md row n pre r post rn d f, read_metadata p data tt = Ok md tt /\
    row_of (tb_assembly (m_tables md)) 1 row /\ heap_text md (as_name row) n /\
    tb_assembly_ref (m_tables md) = pre ++ r :: post /\
    (forall q, In q pre -> exists qn, heap_text md (ar_name q) qn /\ loaded_as s qn) /\
    heap_text md (ar_name r) rn /\ ~ loaded_as s rn /\
    first_there (fun c => fs (fst c) (snd c) <> Missing) (candidates (c_paths s) rn) (d, f) /\ fs d f = File x.

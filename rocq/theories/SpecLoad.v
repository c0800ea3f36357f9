(** Images that can be loaded: what the rows, heaps and bodies of an image have to be for a load to
    succeed, in terms of ECMA-335 partition II and of what the runtime already has. *)
From Coq Require Import NArith String List Bool.
From Coq.Strings Require Import Byte.
From Verif Require Import Base ParseSpec Pe Attributes Tables Blob Metadata Runtime SpecBytes SpecUtf SpecPe SpecBlob SpecMetadata SpecRuntime SpecBody SpecTypes SpecLoader.
Import ListNotations.
Open Scope N_scope.

(** ** Plans *)

(** The layout of a type needs that of its base and of the value types of its fields.  A plan is a
    witness that this ends and that sizes fit in a word: it gives every full name a rank, says which
    names are those of value types, and bounds the sizes. *)
Record plan := { pl_rank : name -> nat; pl_value : name -> bool; pl_weight : name -> N }.

Definition primitive (n : name) : Prop := exists x k, In (x, k) widths /\ n = bytes_of_string x.
Definition a_value_type : name := bytes_of_string "System.ValueType".
Definition an_array_type : name := bytes_of_string "System.Array".
Definition vector_of (n : name) : name := n ++ bytes_of_string "[]".

(** What a field takes at most: a reference, or the value. *)
Definition slot (pl : plan) (n : name) : N := if pl_value pl n then N.max 8 (pl_weight pl n) else 8.

Record plan_ok (top : nat) (pl : plan) : Prop := {
  po_top : forall n, (pl_rank pl n <= top)%nat;
  po_word : forall n, pl_weight pl n < 2 ^ 64;
  po_width : forall x k, In (x, k) widths -> k <= pl_weight pl (bytes_of_string x);
  po_value : pl_value pl a_value_type = true;
  po_array : pl_value pl an_array_type = false;
  po_vectors : forall n, (pl_rank pl an_array_type < pl_rank pl (vector_of n))%nat /\
                         pl_weight pl an_array_type <= pl_weight pl (vector_of n) }.

(** The types that a runtime has follow the plan. *)
Definition name_of (ts : list type_info) (t : tref) : name :=
  match nth_error ts t with Some ti => ti_full_name ti | None => [] end.
Definition base_weight (pl : plan) (o : option name) : N :=
  match o with Some b => pl_weight pl b | None => 0 end.
(** The types whose short names occur in the signatures of built-in methods. *)
Definition short_names : list string := ["Void"; "Char"; "Int32"]%string.
Record planned (pl : plan) (ts : list type_info) : Prop := {
  pn_base : forall ti b, In ti ts -> ti_base ti = Some b ->
    (pl_rank pl (name_of ts b) < pl_rank pl (ti_full_name ti))%nat /\
    (pl_value pl (name_of ts b) = true -> pl_value pl (ti_full_name ti) = true);
  pn_interface : forall ti i, In ti ts -> In i (ti_interfaces ti) -> name_of ts i <> a_value_type;
  pn_field : forall ti f, In ti ts -> In f (ti_fields ti) -> f_static f = false ->
    pl_value pl (name_of ts (f_type f)) = true ->
    primitive (name_of ts (f_type f)) \/ (pl_rank pl (name_of ts (f_type f)) < pl_rank pl (ti_full_name ti))%nat;
  pn_weight : forall ti, In ti ts -> ~ primitive (ti_full_name ti) ->
    base_weight pl (option_map (name_of ts) (ti_base ti)) +
    sum (map (fun f => if f_static f then 0 else slot pl (name_of ts (f_type f))) (ti_fields ti))
      <= pl_weight pl (ti_full_name ti);
  pn_short : forall ti x, In ti ts -> In x short_names ->
    ti_full_name ti = qualified (bytes_of_string x) (bytes_of_string "System") -> ti_name ti = bytes_of_string x }.

(** ** Images *)

(** II.22.37: the rows of a table that belong to type [j], counted from zero. *)
Definition rows_of {A} (starts : list N) (j : nat) (rows : list A) : list A :=
  let x := nth j starts (len rows + 1) in
  let y := nth (S j) starts (len rows + 1) in
  firstn (N.to_nat (y - x)) (skipn (N.to_nat (x - 1)) rows).

Section Loadable.
  Variables (p : profile) (s : vm) (md : metadata) (pl : plan).

  (** A type of this full name is there, or the image defines one. *)
  Definition available (n : name) : Prop := known s n \/ exists k, row_name md InTypeDef k n.

  (** A type of a signature that the runtime supports: built-in types, classes, structs and vectors. *)
  Fixpoint innermost (t : sig_type) : sig_type := match t with TSzArray u => innermost u | _ => t end.
  Definition usable (t : sig_type) : Prop :=
    type_ok t /\ exists n, type_name md (innermost t) n /\ available n.

  (** A method body, in either format; the number counts the vectors among the local variables. *)
  Inductive body_loads (rva : N) : N -> Prop :=
  | loads_tiny code : len code < 64 -> image_at md rva (enc_tiny code) -> body_loads rva 0
  | loads_fat init mx tok code ls : mx < 2 ^ 16 -> tok < 2 ^ 32 -> len code < 2 ^ 32 ->
      image_at md rva (enc_fat init false mx tok code) -> locals_at md tok ls -> Forall usable ls ->
      body_loads rva (sum (map vectors ls))
  | loads_clauses init mx tok code ls more es f bs : mx < 2 ^ 16 -> tok < 2 ^ 32 -> len code < 2 ^ 32 ->
      image_at md rva (enc_fat init true mx tok code ++ f ++ bs) -> locals_at md tok ls -> Forall usable ls ->
      fill (len (enc_fat init true mx tok code)) f -> eh_section more es bs ->
      (forall e, In e es -> eh_is e = EhCatch -> exists n, caught md (eh_operand e) n /\ available n) ->
      body_loads rva (sum (map vectors ls)).

  Definition result_of (i : internal) : string :=
    match i with ConsoleWrite => "System.Void" | StringGetItem => "System.Char" | StringGetLength => "System.Int32" end.

  (** How a method [x] of type [fn] is carried out. *)
  Inductive carried_out (fn x : name) (row : method_def_row) (sg : method_sig) : N -> Prop :=
  | by_runtime i pns : mi_internal_call (me_impl_attributes row) = true -> Forall2 (type_name md) (ms_args sg) pns ->
      built_in i fn x pns -> type_name md (ms_result sg) (bytes_of_string (result_of i)) ->
      carried_out fn x row sg (sum (map vectors (ms_args sg)) + vectors (ms_result sg))
  | by_code k : mi_internal_call (me_impl_attributes row) = false -> ma_pinvoke_impl (me_attributes row) = false ->
      ma_is_abstract (me_attributes row) = false -> body_loads (me_rva row) k -> carried_out fn x row sg k
  | by_nothing : mi_internal_call (me_impl_attributes row) = false -> ma_pinvoke_impl (me_attributes row) = false ->
      ma_is_abstract (me_attributes row) = true -> carried_out fn x row sg 0.

  Definition method_loads (fn : name) (row : method_def_row) (k : N) : Prop :=
    exists x sg b, heap_text md (me_name row) x /\ method_sig_ok sg /\ ms_extra sg = [] /\
      heap_blob md (me_signature row) (enc_method_sig sg) /\ usable (ms_result sg) /\ Forall usable (ms_args sg) /\
      (forall i, (i < List.length (ms_args sg))%nat -> exists r y,
         row_of (tb_param (m_tables md)) (me_param_list row + N.of_nat i) r /\ heap_text md (pm_name r) y) /\
      carried_out fn x row sg b /\ k = b + vectors (ms_result sg) + sum (map vectors (ms_args sg)).

  (** A field of type [ty], whose full name is [n]. *)
  Definition field_loads (row : field_row) (ty : sig_type * name) : Prop :=
    (exists x, heap_text md (fd_name row) x) /\ heap_blob md (fd_signature row) (enc_field_sig (fst ty)) /\
    usable (fst ty) /\ type_name md (fst ty) (snd ty).

  (** The types of the fields, and the numbers of vectors that the methods mention. *)
  Variables (fts : list (sig_type * name)) (ks : list N).
  Let tds := tb_type_def (m_tables md).
  Definition fields_of_type (j : nat) : list (bool * name) :=
    combine (map (fun r => fa_is_static (fd_attributes r)) (rows_of (map td_field_list tds) j (tb_field (m_tables md))))
            (map snd (rows_of (map td_field_list tds) j fts)).

  (** Type [j] extends a type that is available, and its fields and its base follow the plan. *)
  Definition type_loads (j : nat) (row : type_def_row) : Prop :=
    exists (n ns : name) (o : option name), heap_text md (td_name row) n /\ heap_text md (td_namespace row) ns /\ extends md row o /\
      let fn := qualified n ns in
      (forall x, In x short_names -> fn = qualified (bytes_of_string x) (bytes_of_string "System") -> n = bytes_of_string x) /\
      (forall b, o = Some b -> available b /\ (pl_rank pl b < pl_rank pl fn)%nat /\ (pl_value pl b = true -> pl_value pl fn = true)) /\
      (forall m, In (false, m) (fields_of_type j) -> pl_value pl m = true -> primitive m \/ (pl_rank pl m < pl_rank pl fn)%nat) /\
      (~ primitive fn -> base_weight pl o + sum (map (fun f : bool * name => if fst f then 0 else slot pl (snd f)) (fields_of_type j)) <= pl_weight pl fn) /\
      base_weight pl o + sum (map (fun f : bool * name => pl_weight pl (snd f)) (fields_of_type j)) < 2 ^ 64 /\
      Forall2 (method_loads fn) (rows_of (map td_method_list tds) j (tb_method_def (m_tables md)))
                                (rows_of (map td_method_list tds) j ks).

  Record loadable : Prop := {
    ld_addressable : addressable md;
    ld_listed : well_listed md;
    ld_name : exists row n, row_of (tb_assembly (m_tables md)) 1 row /\ heap_text md (as_name row) n;
    ld_references : forall row, In row (tb_assembly_ref (m_tables md)) -> exists n, heap_text md (ar_name row) n /\ loaded_as s n;
    ld_type_refs : forall row, In row (tb_type_ref (m_tables md)) -> exists n ns,
      heap_text md (tr_name row) n /\ heap_text md (tr_namespace row) ns /\ known s (qualified n ns);
    ld_member_refs : forall row, In row (tb_member_ref (m_tables md)) -> of_type_ref row = true -> exists fn t ti x m,
      parent_of md row fn /\ latest (c_types s) fn t /\ nth_error (c_types s) t = Some ti /\
      heap_text md (mr_name row) x /\ last_called mt_name x (ti_methods ti) (Some m);
    ld_core : forall x, In x ("System.ValueType"%string :: map fst widths) -> available (bytes_of_string x);
    ld_fields : Forall2 field_loads (tb_field (m_tables md)) fts;
    ld_counts : List.length ks = List.length (tb_method_def (m_tables md));
    ld_types : forall j row, nth_error tds j = Some row -> type_loads j row;
    ld_interfaces : forall row, In row (tb_interface_impl (m_tables md)) -> exists c tab k i,
      row_name md InTypeDef (ii_class row) c /\ ii_interface row = named_ref tab k /\ row_name md tab k i /\
      available i /\ i <> a_value_type;
    ld_entry : token_index (ch_entry_point (m_cli_header md)) = 0 \/
      exists r, ch_entry_point (m_cli_header md) = 0x06000000 + r /\ 2 <= r <= len (tb_method_def (m_tables md)) + 1;
    ld_room : p = Debug -> len (c_types s) + len tds + sum (map (fun f : sig_type * name => vectors (fst f)) fts) + sum ks < 2 ^ 32 }.
End Loadable.

(** Specification vocabulary for loaded assemblies: what the rows of the metadata tables say about
    the fields and methods of an assembly. *)
From Coq Require Import NArith String List Bool.
From Coq.Strings Require Import Byte.
From Verif Require Import Base ParseSpec Pe Attributes Tables Blob Metadata Runtime SpecBytes SpecUtf SpecPe SpecBlob SpecMetadata SpecRuntime SpecBody SpecTypes.
Import ListNotations.
Open Scope N_scope.

(** II.22: row [k] of a table, counted from one. *)
Definition row_of {A} (rows : list A) (k : N) (r : A) : Prop :=
  1 <= k /\ nth_error rows (N.to_nat (k - 1)) = Some r.

(** II.22.37: the rows of another table that belong to the types are runs that follow each other.
    [starts] has the first row of every type, and [total] is the number of rows.  The table has
    fewer than [2^24] rows, as many as tokens can count. *)
Definition consecutive (starts : list N) (total : N) : Prop :=
  nth_error starts 0 = Some 1 /\
  (forall i x y, nth_error (starts ++ [total + 1]) i = Some x -> nth_error (starts ++ [total + 1]) (S i) = Some y -> x <= y) /\
  total + 1 < 2 ^ 24.

(** Row [k] belongs to the type of row [j]. *)
Definition belongs (starts : list N) (k j : N) : Prop :=
  exists x, row_of starts j x /\ x <= k /\ forall y, row_of starts (j + 1) y -> k < y.

(** Images whose parts have lengths that a program can address, and whose sections are sane. *)
Definition addressable (md : metadata) : Prop :=
  slice_ok (m_blob md) /\ slice_ok (m_pe_data md) /\ sections_ok (pi_sections (m_pe_info md)).

(** [f] is the field that the row describes, and belongs to the type [owner]. *)
Record field_as (md : metadata) (ts : list type_info) (row : field_row) (owner : tref) (f : field_info) : Prop := {
  fas_name : heap_text md (fd_name row) (f_name f);
  fas_owner : f_declaring f = owner;
  fas_static : f_static f = fa_is_static (fd_attributes row);
  fas_type : forall ty n, type_ok ty -> heap_blob md (fd_signature row) (enc_field_sig ty) -> type_name md ty n ->
    is_named ts (f_type f) n }.

(** The methods that the runtime implements itself: the full name of the type, the name, and the full
    names of the types of the parameters. *)
Definition built_in (i : internal) (owner n : name) (params : list name) : Prop :=
  match i with
  | ConsoleWrite => owner = bytes_of_string "System.Console" /\ n = bytes_of_string "Write" /\
      params = [bytes_of_string "System.String"]
  | StringGetItem => owner = bytes_of_string "System.String" /\ n = bytes_of_string "get_Item" /\
      params = [bytes_of_string "System.Int32"]
  | StringGetLength => owner = bytes_of_string "System.String" /\ n = bytes_of_string "get_Length" /\ params = []
  end.

(** The same for methods: the signature has the right types, the parameters have the names and
    numbers of their rows, and a method with a body has the code
    that the image holds at the address in the row. *)
Record method_as (md : metadata) (ts : list type_info) (row : method_def_row) (owner : tref) (m : method_info) : Prop := {
  mas_name : heap_text md (me_name row) (mt_name m);
  mas_owner : mt_declaring m = owner;
  mas_static : mt_static m = ma_is_static (me_attributes row);
  mas_virtual : mt_virtual m = ma_is_virtual (me_attributes row);
  mas_abstract : mt_abstract m = ma_is_abstract (me_attributes row);
  mas_types : forall sg rn pns, method_sig_ok sg -> ms_extra sg = [] ->
    heap_blob md (me_signature row) (enc_method_sig sg) ->
    type_name md (ms_result sg) rn -> Forall2 (type_name md) (ms_args sg) pns ->
    is_named ts (mt_return m) rn /\ Forall2 (is_named ts) (map pa_type (mt_params m)) pns;
  mas_params : len (tb_param (m_tables md)) < 2 ^ 24 -> forall i a, nth_error (mt_params m) i = Some a ->
    exists r, row_of (tb_param (m_tables md)) (me_param_list row + N.of_nat i) r /\
      heap_text md (pm_name r) (pa_name a) /\ pa_index a = pm_index r;
  mas_code : mi_internal_call (me_impl_attributes row) = false -> ma_is_abstract (me_attributes row) = false ->
    exists b, mt_impl m = IIL b /\
      (forall code, len code < 64 -> image_at md (me_rva row) (enc_tiny code) ->
         b_code b = code /\ b_max_stack b = 8 /\ b_locals b = [] /\ b_clauses b = []) /\
      (forall init more mx tok code, mx < 2 ^ 16 -> tok < 2 ^ 32 -> len code < 2 ^ 32 ->
         image_at md (me_rva row) (enc_fat init more mx tok code) ->
         b_code b = code /\ b_max_stack b = mx /\ b_init_locals b = init /\
         forall ls ns, locals_at md tok ls -> Forall type_ok ls -> Forall2 (type_name md) ls ns ->
           Forall2 (is_named ts) (b_locals b) ns);
  mas_bodiless : mi_internal_call (me_impl_attributes row) = false -> ma_is_abstract (me_attributes row) = true ->
    mt_impl m = INone;
  mas_internal : mi_internal_call (me_impl_attributes row) = true ->
    exists i d, mt_impl m = IInternal i /\ is_named ts owner d /\
      forall sg rn pns j, method_sig_ok sg -> ms_extra sg = [] -> type_name md (ms_result sg) rn ->
        heap_blob md (me_signature row) (enc_method_sig sg) -> Forall2 (type_name md) (ms_args sg) pns ->
        built_in j d (mt_name m) pns -> i = j }.

(** The lists of fields and methods of the types follow each other, and every row has a token. *)
Definition well_listed (md : metadata) : Prop :=
  let tbs := m_tables md in
  len (tb_type_def tbs) < 2 ^ 24 /\
  consecutive (map td_field_list (tb_type_def tbs)) (len (tb_field tbs)) /\
  consecutive (map td_method_list (tb_type_def tbs)) (len (tb_method_def tbs)).

(** [ti] is the type that the row of assembly [a] describes. *)
Record type_as (md : metadata) (a : aref) (row : type_def_row) (ti : type_info) : Prop := {
  tas_assembly : ti_assembly ti = a;
  tas_name : heap_text md (td_name row) (ti_name ti);
  tas_namespace : heap_text md (td_namespace row) (ti_namespace ti);
  tas_full_name : ti_full_name ti = qualified (ti_name ti) (ti_namespace ti);
  tas_abstract : ti_abstract ti = ta_is_abstract (td_attributes row) }.

(** II.22.37: the full name of the type that the type of the row extends, if it extends one. *)
Definition extends (md : metadata) (row : type_def_row) (o : option name) : Prop :=
  match o with
  | None => td_extends row = named_ref InTypeDef 0
  | Some n => exists tab k, td_extends row = named_ref tab k /\ row_name md tab k n
  end.
(** What kind of type it is: interfaces say so, and the others are told apart by what they extend. *)
Inductive kind_of (row : type_def_row) (base : option name) : type_kind -> Prop :=
| an_interface : ta_semantics (td_attributes row) = TsInterface -> kind_of row base KInterface
| a_struct : ta_semantics (td_attributes row) = TsClass -> base = Some (bytes_of_string "System.ValueType") ->
    kind_of row base KStruct
| an_enum : ta_semantics (td_attributes row) = TsClass -> base = Some (bytes_of_string "System.Enum") ->
    kind_of row base KEnum
| an_array : ta_semantics (td_attributes row) = TsClass -> base = Some (bytes_of_string "System.Array") ->
    kind_of row base KArray
| a_class : ta_semantics (td_attributes row) = TsClass -> base <> Some (bytes_of_string "System.ValueType") ->
    base <> Some (bytes_of_string "System.Enum") -> base <> Some (bytes_of_string "System.Array") ->
    kind_of row base KClass.
(** II.22.23: the full names of the interfaces that rows of the InterfaceImpl table give to the types
    of full name [fn], in the order of the rows. *)
Inductive implements (md : metadata) (fn : name) : list interface_impl_row -> list name -> Prop :=
| no_rows : implements md fn [] []
| row_for_it ii rows tab k i names : row_name md InTypeDef (ii_class ii) fn ->
    ii_interface ii = named_ref tab k -> row_name md tab k i ->
    implements md fn rows names -> implements md fn (ii :: rows) (i :: names)
| row_for_another ii rows c names : row_name md InTypeDef (ii_class ii) c -> c <> fn ->
    implements md fn rows names -> implements md fn (ii :: rows) names.

(** [ti] extends, is and implements what the row says.  A name stands for the last type registered
    under it; only the last of several types with the same full name is given interfaces. *)
Record type_shape (md : metadata) (ts : list type_info) (row : type_def_row) (t : tref) (ti : type_info) : Prop := {
  tsh_base : exists o k, extends md row o /\ kind_of row o k /\ ti_kind ti = Some k /\
    match o with
    | None => ti_base ti = None
    | Some n => exists b, ti_base ti = Some b /\ latest ts n b
    end;
  tsh_last : latest ts (ti_full_name ti) t -> exists names,
    implements md (ti_full_name ti) (tb_interface_impl (m_tables md)) names /\
    Forall2 (latest ts) names (ti_interfaces ti);
  tsh_hidden : ~ latest ts (ti_full_name ti) t -> ti_interfaces ti = [] }.

(** The last element of [l] called [n], if there is one. *)
Definition last_called {A} (nm : A -> name) (n : name) (l : list A) (o : option A) : Prop :=
  match o with
  | Some x => exists l1 l2, l = l1 ++ x :: l2 /\ nm x = n /\ forall y, In y l2 -> nm y <> n
  | None => forall y, In y l -> nm y <> n
  end.

(** What a MemberRef row whose parent is a TypeRef names as the type of the method. *)
Definition parent_of (md : metadata) (row : member_ref_row) (fn : name) : Prop :=
  exists tr n ns, row_of (tb_type_ref (m_tables md)) (ref_index (mr_parent row)) tr /\
    heap_text md (tr_name tr) n /\ heap_text md (tr_namespace tr) ns /\ fn = qualified n ns.
(** Rows whose parent is a TypeRef. *)
Definition of_type_ref (row : member_ref_row) : bool :=
  match ref_table (mr_parent row) with TTypeRef => true | _ => false end.

(** The places where an assembly of this name is looked for, in order. *)
Definition candidates (paths : list name) (n : name) : list (name * name) :=
  flat_map (fun d => [(d, n ++ bytes_of_string ".dll"); (d, n ++ bytes_of_string ".exe")]) paths.
(** The first of them where there is something. *)
Definition first_there (there : name * name -> Prop) (l : list (name * name)) (c : name * name) : Prop :=
  exists pre post, l = pre ++ c :: post /\ there c /\ forall x, In x pre -> ~ there x.

(** An assembly of this name is loaded. *)
Definition loaded_as (s : vm) (n : name) : Prop :=
  exists a ai, In a (c_assemblies s) /\ nth_error (c_arena s) a = Some (Some ai) /\ a_name ai = n.
(** All assemblies that the image refers to are loaded. *)
Definition references_loaded (s : vm) (md : metadata) : Prop :=
  forall row n, In row (tb_assembly_ref (m_tables md)) -> heap_text md (ar_name row) n -> loaded_as s n.

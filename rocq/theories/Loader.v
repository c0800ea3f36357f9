(** Model of the loader: /repo/clr_lite/src/vm/reflection/{method_body,method,field,type,assembly}.rs
    and the loading functions of /repo/clr_lite/src/vm/mod.rs.  File names below are relative to
    /repo/clr_lite/src/vm.  Error messages are reduced to their fixed part.  [fuel] bounds the
    recursion of [Type::size], of [Type::instance_of] and of the loading of referenced
    assemblies; running out of it stands for the program's own unbounded recursion.  Not
    modelled: the memory taken by [Vec::with_capacity] and [reserve], beyond the check that the
    request fits in [isize]. *)
From Coq Require Import NArith String List Bool.
From Coq.Strings Require Import Byte.
From Verif Require Import Base BinaryReader Pe Attributes Tables Blob Metadata Runtime.
Import ListNotations.
Open Scope N_scope.

(** ** reflection/method_body.rs *)

Definition bad_body : string := "Invalid method body".

(** Indexing a table with a handle. *)
Definition row_at {A} (p : profile) (rows : list A) (h : N) : M vm A :=
  lift (fun _ => table_index p rows h).

(** 305-331: the type caught by a clause. *)
Definition catch_type (p : profile) (md : metadata) (tok : N) : M vm tref :=
  ' (nh, nsh) <- (if token_table tok =? table_id TTypeDef then
                    d <- row_at p (tb_type_def (m_tables md)) (token_index tok) ;;
                    ret (td_name d, td_namespace d)
                  else if token_table tok =? table_id TTypeRef then
                    d <- row_at p (tb_type_ref (m_tables md)) (token_index tok) ;;
                    ret (tr_name d, tr_namespace d)
                  else fail "Invalid metadata token for catch type") ;;
  n <- ok_or (string_at md nh) "Cannot find exception handler type" ;;
  ns <- ok_or (string_at md nsh) "Cannot find exception handler type" ;;
  o <- get_type (full_name n ns) ;;
  ok_or o "Cannot find exception handler type".

(** 287-346, [ExceptionClause::new]. *)
Definition new_clause (p : profile) (md : metadata) (k : clause_kind)
    (try_offset try_length handler_offset handler_length token_or_filter : N) : M vm clause :=
  c <- match k with
       | CkCatch => t <- catch_type p md token_or_filter ;; ret (Some t)
       | _ => ret None
       end ;;
  ret (mkClause k try_offset try_length handler_offset handler_length c
         (match k with CkFilter => Some token_or_filter | _ => None end)).

(** 141-152 and 192-203. *)
Definition clause_kind_of (code : N) : option clause_kind :=
  match code with
  | 0 => Some CkCatch
  | 1 => Some CkFilter
  | 2 => Some CkFinally
  | 4 => Some CkFault
  | _ => None
  end.

(** 137-180 and 188-231: the loop over the clauses; [w1] is the width of the code and of the
    offsets, [w2] that of the lengths. *)
Fixpoint read_clauses (p : profile) (md : metadata) (w1 w2 : N) (n : nat) (r : reader)
    : M vm (list clause) :=
  match n with
  | O => ret []
  | S n' =>
      ' (code, r) <- with_reader r (rd p w1 bad_body) ;;
      k <- ok_or (clause_kind_of code) "Invalid exception clause code" ;;
      ' (try_offset, r) <- with_reader r (rd p w1 bad_body) ;;
      ' (try_length, r) <- with_reader r (rd p w2 bad_body) ;;
      ' (handler_offset, r) <- with_reader r (rd p w1 bad_body) ;;
      ' (handler_length, r) <- with_reader r (rd p w2 bad_body) ;;
      ' (token_or_filter, r) <- with_reader r (rd p 4 bad_body) ;;
      c <- new_clause p md k try_offset try_length handler_offset handler_length token_or_filter ;;
      cs <- read_clauses p md w1 w2 n' r ;;
      ret (c :: cs)
  end.

(** 113-115: [while br.pos() % 4 != 0 { br.advance(1); }]; three rounds are enough. *)
Fixpoint align4 (p : profile) (n : nat) : M reader unit :=
  match n with
  | O => ret tt
  | S n' =>
      r <- get_state ;;
      if rpos r mod 4 =? 0 then ret tt else advance p 1 ;;; align4 p n'
  end.

(** 112-233: the exception handling section. *)
Definition read_section (p : profile) (md : metadata) (r : reader) : M vm (list clause) :=
  ' (_, r) <- with_reader r (align4 p 3) ;;
  ' (next, r) <- with_reader r (rd p 1 bad_body) ;;
  if negb (has next 1) then fail "Non exception extra section in method body"
  else
    ' (data_size, r) <- with_reader r (rd p 1 bad_body) ;;
    if has next 0x40 then
      ' (hi, r) <- with_reader r (rd p 2 bad_body) ;;
      read_clauses p md 4 4 (N.to_nat ((data_size + N.shiftl hi 8) / 24)) r
    else
      ' (_, r) <- with_reader r (advance p 2) ;;
      read_clauses p md 2 1 (N.to_nat (data_size / 12)) r.

(** 89-97: the loop over the local variables. *)
Fixpoint read_locals (p : profile) (md : metadata) (n : nat) (r : reader) : M vm (list tref) :=
  match n with
  | O => ret []
  | S n' =>
      ' (e, r) <- map_err (with_reader r (read_element_type p)) bad_body ;;
      t <- type_for_element p md e ;;
      ts <- read_locals p md n' r ;;
      ret (t :: ts)
  end.

(** 61-101: the types of the local variables.  The table named by the token is not looked at. *)
Definition load_locals (p : profile) (md : metadata) (locals_token : N) : M vm (list tref) :=
  if token_index locals_token =? 0 then ret []
  else
    row <- row_at p (tb_standalone_sig (m_tables md)) (token_index locals_token) ;;
    r <- map_err (lift (fun _ => blob_heap_reader p (m_blob md) (ss_signature row))) bad_body ;;
    ' (b, r) <- map_err (with_reader r (rd p 1 blob_eof)) bad_body ;;
    if negb (b =? 0x7) then fail bad_body
    else
      ' (count, r) <- map_err (with_reader r (read_compressed_u32 p)) bad_body ;;
      read_locals p md (N.to_nat count) r.

(** [br.read_array::<u8>(n).ok_or_else(..)?]. *)
Definition read_code (p : profile) (n : N) : M reader (list byte) :=
  o <- read_array p 1 n ;; ok_or o bad_body.

(** 22-245, [MethodBody::load]; [def.rva] is the only part of the row that is used. *)
Definition load_body (p : profile) (md : metadata) (rva : N) : M vm body :=
  off <- map_err (lift (resolve_rva p (m_pe_info md) rva)) "Cannot find method body" ;;
  d <- lift (slice_from (m_pe_data md) off) ;;
  ' (b, r) <- with_reader (new_reader d) (rd p 1 bad_body) ;;
  match N.land b 3 with
  | 2 =>
      ' (code, _) <- with_reader r (read_code p (N.shiftr (N.land b 0xfc) 2)) ;;
      ret (mkBody code 8 [] (has b 0x10) [])
  | 3 =>
      ' (_, r) <- with_reader r (advance p 1) ;;
      ' (max_stack, r) <- with_reader r (rd p 2 bad_body) ;;
      ' (code_size, r) <- with_reader r (rd p 4 bad_body) ;;
      ' (locals_token, r) <- with_reader r (rd p 4 bad_body) ;;
      locals <- load_locals p md locals_token ;;
      ' (code, r) <- with_reader r (read_code p code_size) ;;
      clauses <- (if has b 8 then read_section p md r else ret []) ;;
      ret (mkBody code max_stack locals (has b 0x10) clauses)
  | _ => fail bad_body
  end.

(** ** reflection/field.rs *)

(** A signature blob read with one of the signature readers. *)
Definition signature_at {A} (p : profile) (md : metadata) (h : N) (m : M reader A) : M vm A :=
  r <- lift (fun _ => blob_heap_reader p (m_blob md) h) ;;
  lift (on_reader r m).

(** 13-40, [Field::load]. *)
Definition load_field (p : profile) (md : metadata) (declaring : tref) (i offset : N) : M vm field_info :=
  def <- row_at p (tb_field (m_tables md)) i ;;
  n <- unwrap (string_at md (fd_name def)) ;;
  e <- signature_at p md (fd_signature def) (read_field_signature p) ;;
  t <- type_for_element p md e ;;
  ret (mkField n t declaring (fa_is_static (fd_attributes def)) offset).

(** ** reflection/method.rs *)

(** [write!(s, ", ")] between the elements, 132-137. *)
Fixpoint comma_separated (l : list name) : name :=
  match l with
  | [] => []
  | [x] => x
  | x :: l' => x ++ bytes_of_string ", " ++ comma_separated l'
  end.

(** 115-140, [internall_call_name]. *)
Definition internal_call_name (n : name) (declaring return_type : type_info) (params : list name) : name :=
  ti_name return_type ++ bytes_of_string " " ++ ti_full_name declaring ++ bytes_of_string "." ++ n
  ++ bytes_of_string "(" ++ comma_separated params ++ bytes_of_string ")".

(** [.unwrap()] on a [Result]. *)
Definition unwrap_result {S A} (m : M S A) : M S A :=
  fun s => match m s with
           | Err _ _ => Panic "called `Result::unwrap()` on an `Err` value"
           | r => r
           end.

(** 30-42: the names of the parameter types.  [Vec::with_capacity] is taken to reserve exactly
    what was asked. *)
Definition param_type_names (p : profile) (md : metadata) (es : list element_type) : M vm (list name) :=
  map_m (fun e =>
    t <- unwrap_result (type_for_element p md e) ;;
    ti <- the_type t ;;
    ret (ti_full_name ti)) es.

(** 86-105: the loop over the parameters. *)
Fixpoint load_params (p : profile) (md : metadata) (h : N) (es : list element_type) : M vm (list param_info) :=
  match es with
  | [] => ret []
  | e :: es' =>
      row <- row_at p (tb_param (m_tables md)) h ;;
      n <- unwrap (string_at md (pm_name row)) ;;
      t <- type_for_element p md e ;;
      ps <- load_params p md (h + 1) es' ;;
      ret (mkParam n (pm_index row) t :: ps)
  end.

(** 13-109, [Method::load]. *)
Definition load_method (p : profile) (md : metadata) (declaring : tref) (i : N) : M vm method_info :=
  def <- row_at p (tb_method_def (m_tables md)) i ;;
  n <- unwrap (string_at md (me_name def)) ;;
  sig <- signature_at p md (me_signature def) (read_method_signature p) ;;
  impl <- (if mi_internal_call (me_impl_attributes def) then
             names <- param_type_names p md (sg_params sig) ;;
             rt <- type_for_element p md (sg_return_type sig) ;;
             rti <- the_type rt ;;
             dti <- the_type declaring ;;
             im <- ok_or (internal_method (internal_call_name n dti rti names))
                     "No internal method with signature" ;;
             ret (IInternal im)
           else if ma_pinvoke_impl (me_attributes def) then
             panic "not implemented: PInvoke not yet supported"
           else if negb (ma_is_abstract (me_attributes def)) then
             b <- load_body p md (me_rva def) ;; ret (IIL b)
           else ret INone) ;;
  rt <- type_for_element p md (sg_return_type sig) ;;
  params <- load_params p md (me_param_list def) (sg_params sig) ;;
  ret (mkMethod n declaring rt params impl (ma_is_static (me_attributes def))
         (ma_is_virtual (me_attributes def)) (ma_is_abstract (me_attributes def))).

(** ** reflection/type.rs *)

(** 15-53, [Type::load]. *)
Definition load_type (p : profile) (md : metadata) (a : aref) (i : N) : M vm tref :=
  def <- row_at p (tb_type_def (m_tables md)) (handle_of_position TTypeDef i) ;;
  n <- unwrap (string_at md (td_name def)) ;;
  ns <- unwrap (string_at md (td_namespace def)) ;;
  id <- next_type_id p ;;
  add_type (mkType a id n ns (full_name n ns) None (ta_is_abstract (td_attributes def)) None
              [] [] [] [] []).

Definition with_base (b : option tref) (ti : type_info) : type_info :=
  mkType (ti_assembly ti) (ti_id ti) (ti_name ti) (ti_namespace ti) (ti_full_name ti) (ti_kind ti)
    (ti_abstract ti) b (ti_fields ti) (ti_methods ti) (ti_interfaces ti) (ti_field_map ti) (ti_method_map ti).
Definition with_kind (k : option type_kind) (ti : type_info) : type_info :=
  mkType (ti_assembly ti) (ti_id ti) (ti_name ti) (ti_namespace ti) (ti_full_name ti) k
    (ti_abstract ti) (ti_base ti) (ti_fields ti) (ti_methods ti) (ti_interfaces ti) (ti_field_map ti) (ti_method_map ti).
Definition with_field (fi : field_info) (ti : type_info) : type_info :=
  mkType (ti_assembly ti) (ti_id ti) (ti_name ti) (ti_namespace ti) (ti_full_name ti) (ti_kind ti)
    (ti_abstract ti) (ti_base ti) (ti_fields ti ++ [fi]) (ti_methods ti) (ti_interfaces ti)
    (map_put (f_name fi) fi (ti_field_map ti)) (ti_method_map ti).
Definition with_method (mi : method_info) (ti : type_info) : type_info :=
  mkType (ti_assembly ti) (ti_id ti) (ti_name ti) (ti_namespace ti) (ti_full_name ti) (ti_kind ti)
    (ti_abstract ti) (ti_base ti) (ti_fields ti) (ti_methods ti ++ [mi]) (ti_interfaces ti)
    (ti_field_map ti) (map_put (mt_name mi) mi (ti_method_map ti)).
Definition with_interface (t : tref) (ti : type_info) : type_info :=
  mkType (ti_assembly ti) (ti_id ti) (ti_name ti) (ti_namespace ti) (ti_full_name ti) (ti_kind ti)
    (ti_abstract ti) (ti_base ti) (ti_fields ti) (ti_methods ti) (ti_interfaces ti ++ [t])
    (ti_field_map ti) (ti_method_map ti).

(** 71-92, [resolve_base]. *)
Definition resolve_base (p : profile) (md : metadata) (t : tref) (i : N) : M vm unit :=
  def <- row_at p (tb_type_def (m_tables md)) (handle_of_position TTypeDef i) ;;
  match ref_table (td_extends def), ref_index (td_extends def) with
  | TTypeDef, 0 => ret tt
  | _, _ =>
      o <- type_def_or_ref_name p md (td_extends def) ;;
      b <- match o with Some n => get_type n | None => ret None end ;;
      b <- ok_or b "Unable to find base type" ;;
      modify_type t (with_base (Some b))
  end.

(** 94-118, [resolve_kind]. *)
Definition resolve_kind (p : profile) (md : metadata) (t : tref) (i : N) : M vm unit :=
  def <- row_at p (tb_type_def (m_tables md)) (handle_of_position TTypeDef i) ;;
  ti <- the_type t ;;
  k <- match ta_semantics (td_attributes def) with
       | TsInterface => ret KInterface
       | TsClass =>
           match ti_base ti with
           | None => ret KClass
           | Some b =>
               bi <- the_type b ;;
               ret (if bytes_eqb (ti_full_name bi) (bytes_of_string "System.ValueType") then KStruct
                    else if bytes_eqb (ti_full_name bi) (bytes_of_string "System.Array") then KArray
                    else if bytes_eqb (ti_full_name bi) (bytes_of_string "System.Enum") then KEnum
                    else KClass)
           end
       end ;;
  modify_type t (with_kind (Some k)).

(** [reserve] panics when the request does not fit in [isize]; the elements are pointers. *)
Definition reserve (n : N) : M vm unit :=
  if 2 ^ 63 - 1 <? 8 * n then panic "capacity overflow" else ret tt.

(** 133-137 and 179-183: the length of the run of rows owned by type [i]; [list_of] selects the
    column that holds the start of the run and [total] is the number of rows of the table. *)
Definition run_length (p : profile) (md : metadata) (i : N) (list_of : type_def_row -> N) (total : N) : M vm N :=
  def <- row_at p (tb_type_def (m_tables md)) (handle_of_position TTypeDef i) ;;
  if i =? len (tb_type_def (m_tables md)) - 1 then
    x <- ovf (u_sub p 64 (list_of def) 1) ;;
    ovf (u_sub p 64 total x)
  else
    next <- row_at p (tb_type_def (m_tables md)) (handle_of_position TTypeDef (i + 1)) ;;
    ovf (u_sub p 64 (list_of next) (list_of def)).

(** 152-164: the loop over the fields. *)
Fixpoint load_fields (fuel : nat) (p : profile) (md : metadata) (t : tref) (n : nat) (i offset : N) : M vm unit :=
  match n with
  | O => ret tt
  | S n' =>
      fi <- load_field p md t i offset ;;
      modify_type t (with_field fi) ;;;
      ti <- the_type t ;;
      modify_assembly (ti_assembly ti) (fun ai =>
        mkAssembly (a_name ai) (a_types ai) (a_entry ai) (a_user_strings ai) (a_method_defs ai)
          (a_method_refs ai) (a_fields ai ++ [fi]) (a_type_refs ai)) ;;;
      sz <- type_size fuel p (f_type fi) ;;
      offset' <- ovf (u_add p 64 offset sz) ;;
      load_fields fuel p md t n' (i + 1) offset'
  end.

(** 120-167, [resolve_fields].  A run whose end does not fit in [usize] panics in a debug build;
    in a release build the end wraps and the loop does not run. *)
Definition resolve_fields (fuel : nat) (p : profile) (md : metadata) (t : tref) (i : N) : M vm unit :=
  def <- row_at p (tb_type_def (m_tables md)) (handle_of_position TTypeDef i) ;;
  count <- run_length p md i td_field_list (len (tb_field (m_tables md))) ;;
  reserve count ;;;
  let start := td_field_list def in
  stop <- ovf (u_add p 64 start count) ;;
  ti <- the_type t ;;
  offset <- match ti_base ti with Some b => type_size fuel p b | None => ret 0 end ;;
  the_assembly (ti_assembly ti) ;;;
  load_fields fuel p md t (N.to_nat (stop - start)) start offset.

(** 169-197, [resolve_methods]. *)
Definition resolve_methods (p : profile) (md : metadata) (t : tref) (i : N) : M vm unit :=
  def <- row_at p (tb_type_def (m_tables md)) (handle_of_position TTypeDef i) ;;
  count <- run_length p md i td_method_list (len (tb_method_def (m_tables md))) ;;
  reserve count ;;;
  let start := td_method_list def in
  stop <- ovf (u_add p 64 start count) ;;
  range_m (N.to_nat (stop - start)) start (fun i =>
    m <- load_method p md t i ;;
    modify_type t (with_method m)).

(** 57-69, [Type::resolve]. *)
Definition resolve (fuel : nat) (p : profile) (md : metadata) (t : tref) (i : N) : M vm unit :=
  resolve_base p md t i ;;;
  resolve_kind p md t i ;;;
  resolve_fields fuel p md t i ;;;
  resolve_methods p md t i.

(** ** reflection/assembly.rs *)

(** 39-51 and 77-84: the full name of a TypeRef or TypeDef row, with [unwrap]. *)
Definition full_name_at (md : metadata) (nh nsh : N) : M vm name :=
  n <- unwrap (string_at md nh) ;;
  ns <- unwrap (string_at md nsh) ;;
  ret (full_name n ns).

(** 34-72: the methods referenced by the assembly. *)
Fixpoint load_method_refs (p : profile) (md : metadata) (rows : list member_ref_row) : M vm (list method_info) :=
  match rows with
  | [] => ret []
  | mr :: rows' =>
      match ref_table (mr_parent mr) with
      | TTypeRef =>
          tr <- row_at p (tb_type_ref (m_tables md)) (ref_index (mr_parent mr)) ;;
          fn <- full_name_at md (tr_name tr) (tr_namespace tr) ;;
          o <- get_type fn ;;
          t <- ok_or o "Cannot find type" ;;
          mn <- ok_or (string_at md (mr_name mr)) "Unable to load methods referenced" ;;
          o <- get_method t mn ;;
          m <- ok_or o "Unable to find method" ;;
          ms <- load_method_refs p md rows' ;;
          ret (m :: ms)
      | _ => load_method_refs p md rows'
      end
  end.

(** 74-90: the types referenced by the assembly. *)
Definition load_type_refs (p : profile) (md : metadata) : M vm (list tref) :=
  map_m (fun tr =>
    fn <- full_name_at md (tr_name tr) (tr_namespace tr) ;;
    o <- get_type fn ;;
    ok_or o "Cannot find type") (tb_type_ref (m_tables md)).

(** 119-164: one interface implementation. *)
Definition load_interface_impl (p : profile) (md : metadata) (ii : interface_impl_row) : M vm unit :=
  td <- row_at p (tb_type_def (m_tables md)) (ii_class ii) ;;
  fn <- full_name_at md (td_name td) (td_namespace td) ;;
  o <- get_type fn ;;
  t <- unwrap o ;;
  ifn <- match ref_table (ii_interface ii) with
         | TTypeDef =>
             d <- row_at p (tb_type_def (m_tables md)) (ref_index (ii_interface ii)) ;;
             full_name_at md (td_name d) (td_namespace d)
         | TTypeRef =>
             d <- row_at p (tb_type_ref (m_tables md)) (ref_index (ii_interface ii)) ;;
             full_name_at md (tr_name d) (tr_namespace d)
         | _ => panic "not implemented: Generics not yet supported"
         end ;;
  o <- get_type ifn ;;
  i <- unwrap o ;;
  modify_type t (with_interface i).

(** 106-111: the loop that loads the type names. *)
Fixpoint load_types (p : profile) (md : metadata) (a : aref) (n : nat) (i : N) : M vm (list tref) :=
  match n with
  | O => ret []
  | S n' => t <- load_type p md a i ;; ts <- load_types p md a n' (i + 1) ;; ret (t :: ts)
  end.

(** 113-116: the loop that resolves the types. *)
Fixpoint resolve_types (fuel : nat) (p : profile) (md : metadata) (ts : list tref) (i : N) : M vm unit :=
  match ts with
  | [] => ret tt
  | t :: ts' => resolve fuel p md t i ;;; resolve_types fuel p md ts' (i + 1)
  end.

Definition with_types (ts : list tref) (ai : assembly_info) : assembly_info :=
  mkAssembly (a_name ai) ts (a_entry ai) (a_user_strings ai) (a_method_defs ai) (a_method_refs ai)
    (a_fields ai) (a_type_refs ai).
Definition with_method_defs (ms : list method_info) (ai : assembly_info) : assembly_info :=
  mkAssembly (a_name ai) (a_types ai) (a_entry ai) (a_user_strings ai) ms (a_method_refs ai)
    (a_fields ai) (a_type_refs ai).
Definition with_entry (m : method_info) (ai : assembly_info) : assembly_info :=
  mkAssembly (a_name ai) (a_types ai) (Some m) (a_user_strings ai) (a_method_defs ai) (a_method_refs ai)
    (a_fields ai) (a_type_refs ai).

(** 106-185: everything that follows the creation of the assembly object. *)
Definition load_contents (fuel : nat) (p : profile) (md : metadata) (a : aref) : M vm unit :=
  ts <- load_types p md a (List.length (tb_type_def (m_tables md))) 0 ;;
  resolve_types fuel p md ts 0 ;;;
  iter_m (load_interface_impl p md) (tb_interface_impl (m_tables md)) ;;;
  modify_assembly a (with_types ts) ;;;
  defs <- map_m (fun t => ti <- the_type t ;; ret (ti_methods ti)) ts ;;
  modify_assembly a (with_method_defs (concat defs)) ;;;
  match m_entry_point md with
  | None => ret tt
  | Some ep =>
      o <- resolve_method p a (token_new ep TMethodDef) ;;
      m <- ok_or o "Missing entry point" ;;
      modify_assembly a (with_entry m)
  end ;;;
  s <- get_state ;;
  put_state (set_assemblies s (c_assemblies s ++ [a])).

(** The assembly object is dropped when its contents fail to load, because only [a] itself
    holds it strongly until line 185. *)
Definition drop_on_error (a : aref) (m : M vm unit) : M vm aref :=
  fun s => match m s with
           | Ok _ s' => Ok a s'
           | Err e s' => Err e (set_arena s' (update (c_arena s') a (fun _ => None)))
           | Panic w => Panic w
           | Ub w => Ub w
           | NoFuel => NoFuel
           end.

(** 92-104: the new assembly object. *)
Definition new_assembly (ai : assembly_info) : M vm aref :=
  fun s => Ok (List.length (c_arena s)) (set_arena s (c_arena s ++ [Some ai])).

(** What the file system has under a directory and a file name. *)
Inductive entry := Missing | Unreadable | File (data : list byte).
Definition file_system := name -> name -> entry.

Definition exists_entry (e : entry) : bool := match e with Missing => false | _ => true end.

(** mod.rs:266-283, [resolve_assembly_name].  The name is taken to be a plain file name: with a
    path separator in it, [PathBuf::push] and [pop] would do something else. *)
Fixpoint resolve_assembly_name (fs : file_system) (paths : list name) (n : name) : option (name * name) :=
  match paths with
  | [] => None
  | d :: paths' =>
      let dll := n ++ bytes_of_string ".dll" in
      let exe := n ++ bytes_of_string ".exe" in
      if exists_entry (fs d dll) then Some (d, dll)
      else if exists_entry (fs d exe) then Some (d, exe)
      else resolve_assembly_name fs paths' n
  end.

(** assembly.rs:29: is an assembly of this name loaded? *)
Fixpoint loaded (arena : list (option assembly_info)) (l : list aref) (n : name) : bool :=
  match l with
  | [] => false
  | a :: l' => match nth_error arena a with
               | Some (Some ai) => bytes_eqb (a_name ai) n || loaded arena l' n
               | _ => loaded arena l' n
               end
  end.

(** assembly.rs:13-188, [Assembly::load], and mod.rs:60-76, [load_assembly],
    [load_assembly_from_path] and [load_assembly_from_data]: the recursion goes through line 30
    of assembly.rs. *)
Fixpoint load_data (fuel : nat) (p : profile) (fs : file_system) (data : list byte) : M vm aref :=
  match fuel with
  | O => nofuel
  | S f =>
      md <- lift (read_metadata p data) ;;
      row <- row_at p (tb_assembly (m_tables md)) (handle_of_position TAssembly 0) ;;
      n <- unwrap (string_at md (as_name row)) ;;
      iter_m (fun r =>
        rn <- ok_or (string_at md (ar_name r)) "invalid assembly references" ;;
        s <- get_state ;;
        if loaded (c_arena s) (c_assemblies s) rn then ret tt
        else
          path <- ok_or (resolve_assembly_name fs (c_paths s) rn) "Could not locate assembly" ;;
          match fs (fst path) (snd path) with
          | File d => load_data f p fs d ;;; ret tt
          | _ => fail "cannot read file"
          end) (tb_assembly_ref (m_tables md)) ;;;
      method_refs <- load_method_refs p md (tb_member_ref (m_tables md)) ;;
      type_refs <- load_type_refs p md ;;
      a <- new_assembly (mkAssembly n [] None (m_user_strings md) [] method_refs [] type_refs) ;;
      drop_on_error a (load_contents f p md a)
  end.

(** mod.rs:69-72, [load_assembly_from_path]. *)
Definition load_path (fuel : nat) (p : profile) (fs : file_system) (path : name * name) : M vm aref :=
  match fs (fst path) (snd path) with
  | File d => load_data fuel p fs d
  | _ => fail "cannot read file"
  end.

(** mod.rs:60-67, [load_assembly]. *)
Definition load_assembly (fuel : nat) (p : profile) (fs : file_system) (n : name) : M vm aref :=
  s <- get_state ;;
  path <- ok_or (resolve_assembly_name fs (c_paths s) n) "Could not locate assembly" ;;
  load_path fuel p fs path.

(** mod.rs:244-263, [ClrInternal::new_runtime]; [paths] are the directory of the executable and
    its [libraries] subdirectory. *)
Definition empty_vm (paths : list name) : vm := mkVm paths [] [] [] [] 0 None [].

(** mod.rs:42-46 and 78-124, [new_runtime] and [load_builtin_assemblies]; the two built-in
    images are arguments. *)
Definition new_runtime (fuel : nat) (p : profile) (fs : file_system) (paths : list name)
    (system_runtime system_console : list byte) : res vm unit :=
  (load_data fuel p fs system_runtime ;;;
   load_data fuel p fs system_console ;;;
   sbyte <- named "System.SByte" ;;
   byte <- named "System.Byte" ;;
   short <- named "System.Int16" ;;
   ushort <- named "System.UInt16" ;;
   int <- named "System.Int32" ;;
   uint <- named "System.UInt32" ;;
   long <- named "System.Int64" ;;
   ulong <- named "System.UInt64" ;;
   float <- named "System.Single" ;;
   double <- named "System.Double" ;;
   object <- named "System.Object" ;;
   s <- get_state ;;
   put_state (set_primitives s (mkPrimitives sbyte byte short ushort int uint long ulong float double object)))
  (empty_vm paths).

(** Debug and release builds do the same, unless the debug build panics because of an arithmetic overflow: the
    runtime, the loader, the interpreter. *)
From Coq Require Import NArith ZArith Lia String List Bool.
From Coq.Strings Require Import Byte.
From Verif Require Import Base Utf BinaryReader Pe Attributes Tables Blob Metadata Runtime Loader Value Gc Opcodes Interp Host SpecProfiles AgreeFacts.
Import ListNotations.
Open Scope N_scope.

Lemma ag_drop_on_error a (m m' : M vm unit) : agree m m' -> agree (drop_on_error a m) (drop_on_error a m').
Proof. intros H s. unfold drop_on_error. destruct (H s) as [E|(w & I & E)]; rewrite E; [now left|right; eauto]. Qed.
Lemma ag_on_vm {A} (m m' : M vm A) : agree m m' -> agree (on_vm m) (on_vm m').
Proof. intros H s. unfold on_vm. destruct (H (x_vm s)) as [E|(w & I & E)]; rewrite E; [now left|right; eauto]. Qed.
Lemma ag_in_frame {A} (m m' : M machine A) : agree m m' -> agree (in_frame m) (in_frame m').
Proof. intros H s. unfold in_frame. cbv zeta. destruct (H (set_alloc s 0)) as [E|(w & I & E)]; rewrite E; [now left|right; eauto]. Qed.
Lemma ag_invoke r r' m args : (forall fr, agree (r fr) (r' fr)) -> agree (invoke r m args) (invoke r' m args).
Proof.
  intro H. unfold invoke. destruct (mt_impl m); try apply ag_refl. apply ag_bind; [apply ag_refl|intro]. apply ag_bind; [apply ag_refl|intros _].
  apply ag_in_frame. apply ag_bind; [apply ag_refl|intro]. apply H.
Qed.

Ltac ag_more :=
  lazymatch goal with
  | |- agree (drop_on_error _ _) _ => apply ag_drop_on_error
  | |- agree (on_vm _) _ => apply ag_on_vm
  | |- agree (in_frame _) _ => apply ag_in_frame
  | |- agree (invoke _ _ _) _ => apply ag_invoke; intro
  end.
Ltac ag := repeat first [ag_auto | ag_more | ag_step].

(** ** Runtime *)

Lemma ag_next_type_id  : agree (next_type_id Debug) (next_type_id Release).
Proof. unfold next_type_id. ag. Qed.
#[export] Hint Resolve ag_next_type_id : ag.
Lemma ag_type_def_or_ref_name (md : metadata) (h : row_ref) : agree (type_def_or_ref_name Debug md h) (type_def_or_ref_name Release md h).
Proof. unfold type_def_or_ref_name. ag. Qed.
#[export] Hint Resolve ag_type_def_or_ref_name : ag.
Lemma ag_array_of (element : tref) : agree (array_of Debug element) (array_of Release element).
Proof. unfold array_of. ag. Qed.
#[export] Hint Resolve ag_array_of : ag.
Lemma ag_type_for_element (md : metadata) (e : element_type) : agree (type_for_element Debug md e) (type_for_element Release md e).
Proof. induction e; cbn [type_for_element]; ag. Qed.
#[export] Hint Resolve ag_type_for_element : ag.
Lemma ag_type_size (fuel : nat) (t : tref) : agree (type_size fuel Debug t) (type_size fuel Release t).
Proof. revert t. induction fuel as [|fuel IH]; intro t; cbn [type_size]; ag. Qed.
#[export] Hint Resolve ag_type_size : ag.
Lemma ag_get_row {A} (l : list A) (tok : N) : agree (@get_row A Debug l tok) (@get_row A Release l tok).
Proof. unfold get_row. ag. Qed.
#[export] Hint Resolve ag_get_row : ag.
Lemma ag_resolve_method (a : aref) (tok : N) : agree (resolve_method Debug a tok) (resolve_method Release a tok).
Proof. unfold resolve_method. ag. Qed.
#[export] Hint Resolve ag_resolve_method : ag.
Lemma ag_resolve_field (a : aref) (tok : N) : agree (resolve_field Debug a tok) (resolve_field Release a tok).
Proof. unfold resolve_field. ag. Qed.
#[export] Hint Resolve ag_resolve_field : ag.
Lemma ag_resolve_type (a : aref) (tok : N) : agree (resolve_type Debug a tok) (resolve_type Release a tok).
Proof. unfold resolve_type. ag. Qed.
#[export] Hint Resolve ag_resolve_type : ag.
Lemma ag_get_string (a : aref) (tok : N) : agree (get_string Debug a tok) (get_string Release a tok).
Proof. unfold get_string. ag. Qed.
#[export] Hint Resolve ag_get_string : ag.

(** ** Loader *)

Lemma ag_row_at {A} (rows : list A) (h : N) : agree (@row_at A Debug rows h) (@row_at A Release rows h).
Proof. unfold row_at. ag. Qed.
#[export] Hint Resolve ag_row_at : ag.
Lemma ag_catch_type (md : metadata) (tok : N) : agree (catch_type Debug md tok) (catch_type Release md tok).
Proof. unfold catch_type. ag. Qed.
#[export] Hint Resolve ag_catch_type : ag.
Lemma ag_new_clause (md : metadata) (k : clause_kind) (try_offset : N) (try_length : N) (handler_offset : N) (handler_length : N) (token_or_filter : N) : agree (new_clause Debug md k try_offset try_length handler_offset handler_length token_or_filter) (new_clause Release md k try_offset try_length handler_offset handler_length token_or_filter).
Proof. unfold new_clause. ag. Qed.
#[export] Hint Resolve ag_new_clause : ag.
Lemma ag_read_clauses (md : metadata) (w1 : N) (w2 : N) (n : nat) (r : reader) : agree (read_clauses Debug md w1 w2 n r) (read_clauses Release md w1 w2 n r).
Proof. revert r. induction n as [|n IH]; intro r; cbn [read_clauses]; ag. Qed.
#[export] Hint Resolve ag_read_clauses : ag.
Lemma ag_align4 (n : nat) : agree (align4 Debug n) (align4 Release n).
Proof. induction n as [|n IH]; cbn [align4]; ag. Qed.
#[export] Hint Resolve ag_align4 : ag.
Lemma ag_read_section (md : metadata) (r : reader) : agree (read_section Debug md r) (read_section Release md r).
Proof. unfold read_section. ag. Qed.
#[export] Hint Resolve ag_read_section : ag.
Lemma ag_read_locals (md : metadata) (n : nat) (r : reader) : agree (read_locals Debug md n r) (read_locals Release md n r).
Proof. revert r. induction n as [|n IH]; intro r; cbn [read_locals]; ag. Qed.
#[export] Hint Resolve ag_read_locals : ag.
Lemma ag_load_locals (md : metadata) (locals_token : N) : agree (load_locals Debug md locals_token) (load_locals Release md locals_token).
Proof. unfold load_locals. ag. Qed.
#[export] Hint Resolve ag_load_locals : ag.
Lemma ag_read_code (n : N) : agree (read_code Debug n) (read_code Release n).
Proof. unfold read_code. ag. Qed.
#[export] Hint Resolve ag_read_code : ag.
Lemma ag_load_body (md : metadata) (rva : N) : agree (load_body Debug md rva) (load_body Release md rva).
Proof. unfold load_body. ag. Qed.
#[export] Hint Resolve ag_load_body : ag.
Lemma ag_signature_at {A} (md : metadata) (h : N) (m m' : M reader A) : agree m m' -> agree (signature_at Debug md h m) (signature_at Release md h m').
Proof. intro. unfold signature_at. ag. Qed.
#[export] Hint Resolve ag_signature_at : ag.
Lemma ag_load_field (md : metadata) (declaring : tref) (i : N) (offset : N) : agree (load_field Debug md declaring i offset) (load_field Release md declaring i offset).
Proof. unfold load_field. ag. Qed.
#[export] Hint Resolve ag_load_field : ag.
Lemma ag_param_type_names (md : metadata) (es : list element_type) : agree (param_type_names Debug md es) (param_type_names Release md es).
Proof. unfold param_type_names. ag. Qed.
#[export] Hint Resolve ag_param_type_names : ag.
Lemma ag_load_params (md : metadata) (h : N) (es : list element_type) : agree (load_params Debug md h es) (load_params Release md h es).
Proof. revert h. induction es as [|e es IH]; intro h; cbn [load_params]; ag. Qed.
#[export] Hint Resolve ag_load_params : ag.
Lemma ag_load_method (md : metadata) (declaring : tref) (i : N) : agree (load_method Debug md declaring i) (load_method Release md declaring i).
Proof. unfold load_method. ag. Qed.
#[export] Hint Resolve ag_load_method : ag.
Lemma ag_load_type (md : metadata) (a : aref) (i : N) : agree (load_type Debug md a i) (load_type Release md a i).
Proof. unfold load_type. ag. Qed.
#[export] Hint Resolve ag_load_type : ag.
Lemma ag_resolve_base (md : metadata) (t : tref) (i : N) : agree (resolve_base Debug md t i) (resolve_base Release md t i).
Proof. unfold resolve_base. ag. Qed.
#[export] Hint Resolve ag_resolve_base : ag.
Lemma ag_resolve_kind (md : metadata) (t : tref) (i : N) : agree (resolve_kind Debug md t i) (resolve_kind Release md t i).
Proof. unfold resolve_kind. ag. Qed.
#[export] Hint Resolve ag_resolve_kind : ag.
Lemma ag_run_length (md : metadata) (i : N) (list_of : type_def_row -> N) (total : N) : agree (run_length Debug md i list_of total) (run_length Release md i list_of total).
Proof. unfold run_length. ag. Qed.
#[export] Hint Resolve ag_run_length : ag.
Lemma ag_load_fields (fuel : nat) (md : metadata) (t : tref) (n : nat) (i : N) (offset : N) : agree (load_fields fuel Debug md t n i offset) (load_fields fuel Release md t n i offset).
Proof. revert i offset. induction n as [|n IH]; intros i offset; cbn [load_fields]; ag. Qed.
#[export] Hint Resolve ag_load_fields : ag.
Lemma ag_resolve_fields (fuel : nat) (md : metadata) (t : tref) (i : N) : agree (resolve_fields fuel Debug md t i) (resolve_fields fuel Release md t i).
Proof. unfold resolve_fields. ag. Qed.
#[export] Hint Resolve ag_resolve_fields : ag.
Lemma ag_resolve_methods (md : metadata) (t : tref) (i : N) : agree (resolve_methods Debug md t i) (resolve_methods Release md t i).
Proof. unfold resolve_methods. ag. Qed.
#[export] Hint Resolve ag_resolve_methods : ag.
Lemma ag_resolve (fuel : nat) (md : metadata) (t : tref) (i : N) : agree (resolve fuel Debug md t i) (resolve fuel Release md t i).
Proof. unfold resolve. ag. Qed.
#[export] Hint Resolve ag_resolve : ag.
Lemma ag_load_method_refs (md : metadata) (rows : list member_ref_row) : agree (load_method_refs Debug md rows) (load_method_refs Release md rows).
Proof. induction rows as [|r rows IH]; cbn [load_method_refs]; ag. Qed.
#[export] Hint Resolve ag_load_method_refs : ag.
Lemma ag_load_type_refs (md : metadata) : agree (load_type_refs Debug md) (load_type_refs Release md).
Proof. unfold load_type_refs. ag. Qed.
#[export] Hint Resolve ag_load_type_refs : ag.
Lemma ag_load_interface_impl (md : metadata) (ii : interface_impl_row) : agree (load_interface_impl Debug md ii) (load_interface_impl Release md ii).
Proof. unfold load_interface_impl. ag. Qed.
#[export] Hint Resolve ag_load_interface_impl : ag.
Lemma ag_load_types (md : metadata) (a : aref) (n : nat) (i : N) : agree (load_types Debug md a n i) (load_types Release md a n i).
Proof. revert i. induction n as [|n IH]; intro i; cbn [load_types]; ag. Qed.
#[export] Hint Resolve ag_load_types : ag.
Lemma ag_resolve_types (fuel : nat) (md : metadata) (ts : list tref) (i : N) : agree (resolve_types fuel Debug md ts i) (resolve_types fuel Release md ts i).
Proof. revert i. induction ts as [|t ts IH]; intro i; cbn [resolve_types]; ag. Qed.
#[export] Hint Resolve ag_resolve_types : ag.
Lemma ag_load_contents (fuel : nat) (md : metadata) (a : aref) : agree (load_contents fuel Debug md a) (load_contents fuel Release md a).
Proof. unfold load_contents. ag. Qed.
#[export] Hint Resolve ag_load_contents : ag.
Lemma ag_load_data (fuel : nat) (fs : file_system) (data : list byte) : agree (load_data fuel Debug fs data) (load_data fuel Release fs data).
Proof. revert data. induction fuel as [|fuel IH]; intro data; cbn [load_data]; ag. Qed.
#[export] Hint Resolve ag_load_data : ag.
Lemma ag_load_path (fuel : nat) (fs : file_system) (path : name * name) : agree (load_path fuel Debug fs path) (load_path fuel Release fs path).
Proof. unfold load_path. ag. Qed.
#[export] Hint Resolve ag_load_path : ag.
Lemma ag_load_assembly (fuel : nat) (fs : file_system) (n : name) : agree (load_assembly fuel Debug fs n) (load_assembly fuel Release fs n).
Proof. unfold load_assembly. ag. Qed.
#[export] Hint Resolve ag_load_assembly : ag.
Lemma ag_new_runtime (fuel : nat) (fs : file_system) (paths : list name) (system_runtime : list byte) (system_console : list byte) : agree_res (new_runtime fuel Debug fs paths system_runtime system_console) (new_runtime fuel Release fs paths system_runtime system_console).
Proof. unfold new_runtime. ag. Qed.
#[export] Hint Resolve ag_new_runtime : ag.

(** ** Value *)

Lemma ag_arith {S} (t : ity) (x : Z) : agree (@arith S Debug t x) (@arith S Release t x).
Proof. unfold arith. ag. Qed.
#[export] Hint Resolve ag_arith : ag.
Lemma ag_shift_amount {S} (t : ity) (b : Z) : agree (@shift_amount S Debug t b) (@shift_amount S Release t b).
Proof. unfold shift_amount. ag. Qed.
#[export] Hint Resolve ag_shift_amount : ag.
Lemma ag_v_add {S} (a b : value) : agree (@v_add S Debug a b) (@v_add S Release a b).
Proof. unfold v_add. ag. Qed.
#[export] Hint Resolve ag_v_add : ag.
Lemma ag_v_sub {S} (a b : value) : agree (@v_sub S Debug a b) (@v_sub S Release a b).
Proof. unfold v_sub. ag. Qed.
#[export] Hint Resolve ag_v_sub : ag.
Lemma ag_v_mul {S} (a b : value) : agree (@v_mul S Debug a b) (@v_mul S Release a b).
Proof. unfold v_mul. ag. Qed.
#[export] Hint Resolve ag_v_mul : ag.
Lemma ag_v_shl {S} (a b : value) : agree (@v_shl S Debug a b) (@v_shl S Release a b).
Proof. unfold v_shl. ag. Qed.
#[export] Hint Resolve ag_v_shl : ag.
Lemma ag_v_shr {S} (a b : value) : agree (@v_shr S Debug a b) (@v_shr S Release a b).
Proof. unfold v_shr. ag. Qed.
#[export] Hint Resolve ag_v_shr : ag.
Lemma ag_v_neg {S} (a : value) : agree (@v_neg S Debug a) (@v_neg S Release a).
Proof. unfold v_neg. ag. Qed.
#[export] Hint Resolve ag_v_neg : ag.

(** ** Gc *)

Lemma ag_ensure_size (size : N) : agree (ensure_size Debug size) (ensure_size Release size).
Proof. unfold ensure_size. ag. Qed.
#[export] Hint Resolve ag_ensure_size : ag.
Lemma ag_make_room (size : N) : agree (make_room Debug size) (make_room Release size).
Proof. unfold make_room. ag. Qed.
#[export] Hint Resolve ag_make_room : ag.
Lemma ag_alloc (fuel : nat) (t : tref) : agree (alloc fuel Debug t) (alloc fuel Release t).
Proof. unfold alloc. ag. Qed.
#[export] Hint Resolve ag_alloc : ag.
Lemma ag_alloc_array (fuel : nat) (element : tref) (length : N) : agree (alloc_array fuel Debug element length) (alloc_array fuel Release element length).
Proof. unfold alloc_array. ag. Qed.
#[export] Hint Resolve ag_alloc_array : ag.
Lemma ag_alloc_string (text : list N) : agree (alloc_string Debug text) (alloc_string Release text).
Proof. unfold alloc_string. ag. Qed.
#[export] Hint Resolve ag_alloc_string : ag.

(** ** Interp *)

Lemma ag_method_call (fr : frame) (tok : N) (result : option value) : agree (method_call Debug fr tok result) (method_call Release fr tok result).
Proof. unfold method_call. ag. Qed.
#[export] Hint Resolve ag_method_call : ag.
Lemma ag_newobj (fuel : nat) (fr : frame) : agree (newobj fuel Debug fr) (newobj fuel Release fr).
Proof. unfold newobj. ag. Qed.
#[export] Hint Resolve ag_newobj : ag.
Lemma ag_stfld (fr : frame) : agree (stfld Debug fr) (stfld Release fr).
Proof. unfold stfld. ag. Qed.
#[export] Hint Resolve ag_stfld : ag.
Lemma ag_ldfld (fr : frame) : agree (ldfld Debug fr) (ldfld Release fr).
Proof. unfold ldfld. ag. Qed.
#[export] Hint Resolve ag_ldfld : ag.
Lemma ag_newarr (fuel : nat) (fr : frame) : agree (newarr fuel Debug fr) (newarr fuel Release fr).
Proof. unfold newarr. ag. Qed.
#[export] Hint Resolve ag_newarr : ag.
Lemma ag_ldstr (fr : frame) : agree (ldstr Debug fr) (ldstr Release fr).
Proof. unfold ldstr. ag. Qed.
#[export] Hint Resolve ag_ldstr : ag.
Lemma ag_op1 fr f f' : (forall a, agree (f a) (f' a)) -> agree (op1 fr f) (op1 fr f').
Proof. intro. unfold op1. ag. Qed.
Lemma ag_op2 fr f f' : (forall a b, agree (f a b) (f' a b)) -> agree (op2 fr f) (op2 fr f').
Proof. intro. unfold op2. ag. Qed.
Lemma ag_exec_op (fuel : nat) (op : opcode) (fr : frame) : agree (exec_op fuel Debug op fr) (exec_op fuel Release op fr).
Proof. unfold exec_op. ag. all: try (apply ag_op1; intro); try (apply ag_op2; intros); ag. Qed.
#[export] Hint Resolve ag_exec_op : ag.
Lemma ag_one_step (fuel : nat) (fr : frame) : agree (step fuel Debug fr) (step fuel Release fr).
Proof. unfold step. ag. Qed.
#[export] Hint Resolve ag_one_step : ag.
Lemma ag_run (fuel : nat) (fr : frame) : agree (run fuel Debug fr) (run fuel Release fr).
Proof. revert fr. induction fuel as [|fuel IH]; intro fr; cbn [run]; ag. Qed.
#[export] Hint Resolve ag_run : ag.
Lemma ag_execute (fuel : nat) (m : method_info) (params : list value) : agree (execute fuel Debug m params) (execute fuel Release m params).
Proof. unfold execute. ag. Qed.
#[export] Hint Resolve ag_execute : ag.

(** ** Host *)

Lemma ag_test_program (fuel : nat) (fs : file_system) (paths : list name) (system_runtime : list byte) (system_console : list byte) (argument : option (name * name)) : agree_res (test_program fuel Debug fs paths system_runtime system_console argument) (test_program fuel Release fs paths system_runtime system_console argument).
Proof. unfold test_program. ag. Qed.
#[export] Hint Resolve ag_test_program : ag.


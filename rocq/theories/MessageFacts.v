(** Lemmas about the texts of errors: which parts of an instruction end with an error, and that the texts of
    Messages.v go along with the errors of Interp.v. *)
From Coq Require Import NArith ZArith Lia String List Bool.
From Coq.Strings Require Import Byte.
From Verif Require Import Base BaseFacts BinaryReader Tables Blob Metadata Utf Runtime Value Opcodes Gc Interp Texts Messages SpecRuntime RuntimeInv
  InterpFacts InterpInv StackFacts VmFacts.
Import ListNotations.
Open Scope N_scope.

(** ** Code that does not end with an error *)

Definition errless_res {S A} (r : res S A) : Prop := match r with Err _ _ => False | _ => True end.
Definition errless {S A} (m : M S A) : Prop := forall s, errless_res (m s).

Lemma ne_bind {S A B} (m : M S A) (k : A -> M S B) : errless m -> (forall a, errless (k a)) -> errless (bind m k).
Proof. intros Hm Hk s. unfold bind. specialize (Hm s). destruct (m s); try exact Hm; try exact I. apply Hk. Qed.
Lemma ne_ret {S A} (a : A) : errless (S := S) (ret a).
Proof. intro s. exact I. Qed.
Lemma ne_try_m {S A} (m : M S A) : errless (try_m m).
Proof. intro s. unfold try_m. destruct (m s); exact I. Qed.
Lemma ne_lift {S A} (m : M unit A) : errless m -> errless (S := S) (lift m).
Proof. intros H s. unfold lift. specialize (H tt). destruct (m tt); try exact H; exact I. Qed.
Lemma ne_on_vm {A} (m : M vm A) : errless m -> errless (on_vm m).
Proof. intros H s. unfold on_vm. specialize (H (x_vm s)). destruct (m (x_vm s)); try exact H; exact I. Qed.
Lemma ne_fold_m {S A B} (f : A -> B -> M S A) : (forall a x, errless (f a x)) -> forall l a, errless (fold_m f a l).
Proof. intro H. induction l as [|x l IH]; intro a; cbn [fold_m]; [apply ne_ret|]. apply ne_bind; [apply H|intro; apply IH]. Qed.

Create HintDb ne discriminated.

Ltac ne_step :=
  lazymatch goal with
  | |- errless (bind _ _) => apply ne_bind; [|intro]
  | |- errless (ovf ?o) => unfold ovf; destruct o
  | |- errless (unwrap ?o) => unfold unwrap; destruct o
  | |- errless (ret _) => apply ne_ret
  | |- errless (panic _) => intro; exact I
  | |- errless (ub _) => intro; exact I
  | |- errless nofuel => intro; exact I
  | |- errless get_state => intro; exact I
  | |- errless (put_state _) => intro; exact I
  | |- errless (try_m _) => apply ne_try_m
  | |- errless (lift _) => apply ne_lift
  | |- errless (on_vm _) => apply ne_on_vm
  | |- errless (fold_m _ _ _) => apply ne_fold_m; intros
  | |- errless (let x := ?e in _) => cbv zeta
  | |- errless (match ?x with _ => _ end) => destruct x
  | |- errless (fun s => _) => let s := fresh "s" in intro s; cbv beta
  | |- errless_res (Ok _ _) => exact I
  | |- errless_res (Ub _) => exact I
  | |- errless_res NoFuel => exact I
  | |- errless_res (Panic _) => exact I
  | |- errless_res (let x := ?e in _) => cbv zeta
  | |- errless_res (match ?x with _ => _ end) => destruct x
  | |- errless_res (?m ?s) => let H := fresh "H" in assert (H : errless m); [|exact (H s)]
  | H : forall a b, errless (?r a b) |- errless (?r _ _) => apply H
  | H : forall a, errless (?r a) |- errless (?r _) => apply H
  end.
Ltac ne_auto := solve [auto 3 with ne nocore].
Ltac ne := repeat first [ne_auto | ne_step].

Lemma ne_the_type (t : tref) : errless (the_type t).
Proof. unfold the_type. ne. Qed.
#[export] Hint Resolve ne_the_type : ne.
Lemma ne_the_assembly (a : aref) : errless (the_assembly a).
Proof. unfold the_assembly. ne. Qed.
#[export] Hint Resolve ne_the_assembly : ne.
Lemma ne_get_type (n : name) : errless (get_type n).
Proof. unfold get_type. ne. Qed.
#[export] Hint Resolve ne_get_type : ne.
Lemma ne_the_primitives  : errless (the_primitives).
Proof. unfold the_primitives. ne. Qed.
#[export] Hint Resolve ne_the_primitives : ne.
Lemma ne_type_eq (t : tref) (u : tref) : errless (type_eq t u).
Proof. unfold type_eq. ne. Qed.
#[export] Hint Resolve ne_type_eq : ne.
Lemma ne_named (s : string) : errless (named s).
Proof. unfold named. ne. Qed.
#[export] Hint Resolve ne_named : ne.
Lemma ne_next_type_id (p : profile)  : errless (next_type_id p).
Proof. unfold next_type_id. ne. Qed.
#[export] Hint Resolve ne_next_type_id : ne.
Lemma ne_add_type (ti : type_info) : errless (add_type ti).
Proof. unfold add_type. ne. Qed.
#[export] Hint Resolve ne_add_type : ne.
Lemma ne_array_of (p : profile) (element : tref) : errless (array_of p element).
Proof. unfold array_of. ne. Qed.
#[export] Hint Resolve ne_array_of : ne.
Lemma ne_contains_type (l : list tref) (other : tref) : errless (contains_type l other).
Proof. induction l as [|x l IH]; cbn [contains_type]; ne. Qed.
#[export] Hint Resolve ne_contains_type : ne.
Lemma ne_instance_of (fuel : nat) (t : tref) (other : tref) : errless (instance_of fuel t other).
Proof. revert t. induction fuel as [|fuel IH]; intro t; cbn [instance_of]; ne. Qed.
#[export] Hint Resolve ne_instance_of : ne.
Lemma ne_is_reference_type (fuel : nat) (t : tref) : errless (is_reference_type fuel t).
Proof. unfold is_reference_type. ne. Qed.
#[export] Hint Resolve ne_is_reference_type : ne.
Lemma ne_try_sizes (l : list (string * N)) (t : tref) : errless (try_sizes l t).
Proof. induction l as [|x l IH]; cbn [try_sizes]; ne. Qed.
#[export] Hint Resolve ne_try_sizes : ne.
Lemma ne_type_size (p : profile) (fuel : nat) (t : tref) : errless (type_size fuel p t).
Proof. revert t. induction fuel as [|fuel IH]; intro t; cbn [type_size]; ne. Qed.
#[export] Hint Resolve ne_type_size : ne.
Lemma ne_get_row {A} (p : profile) (l : list A) (tok : N) : errless (@get_row A p l tok).
Proof. unfold get_row. ne. Qed.
#[export] Hint Resolve ne_get_row : ne.
Lemma ne_resolve_method (p : profile) (a : aref) (tok : N) : errless (resolve_method p a tok).
Proof. unfold resolve_method. ne. Qed.
#[export] Hint Resolve ne_resolve_method : ne.
Lemma ne_resolve_field (p : profile) (a : aref) (tok : N) : errless (resolve_field p a tok).
Proof. unfold resolve_field. ne. Qed.
#[export] Hint Resolve ne_resolve_field : ne.
Lemma ne_resolve_type (p : profile) (a : aref) (tok : N) : errless (resolve_type p a tok).
Proof. unfold resolve_type. ne. Qed.
#[export] Hint Resolve ne_resolve_type : ne.
Lemma ne_slice_from (d : list byte) (a : N) : errless (slice_from d a).
Proof. unfold slice_from. ne. Qed.
#[export] Hint Resolve ne_slice_from : ne.
Lemma ne_get_string (p : profile) (a : aref) (tok : N) : errless (get_string p a tok).
Proof. unfold get_string. ne. Qed.
#[export] Hint Resolve ne_get_string : ne.
Lemma ne_arith {S} (p : profile) (t : ity) (x : Z) : errless (@arith S p t x).
Proof. unfold arith. ne. Qed.
#[export] Hint Resolve ne_arith : ne.
Lemma ne_int_div {S} (t : ity) (a : Z) (b : Z) : errless (@int_div S t a b).
Proof. unfold int_div. ne. Qed.
#[export] Hint Resolve ne_int_div : ne.
Lemma ne_int_rem {S} (t : ity) (a : Z) (b : Z) : errless (@int_rem S t a b).
Proof. unfold int_rem. ne. Qed.
#[export] Hint Resolve ne_int_rem : ne.
Lemma ne_shift_amount {S} (p : profile) (t : ity) (b : Z) : errless (@shift_amount S p t b).
Proof. unfold shift_amount. ne. Qed.
#[export] Hint Resolve ne_shift_amount : ne.
Lemma ne_binary {S} (what : string) (int_case : ity -> Z -> Z -> M S value) (float_case : option fop) (a : value) (b : value) :
  (forall t x y, errless (int_case t x y)) -> errless (@binary S what int_case float_case a b).
Proof.
  intros H. assert (P : errless (S := S) (A := value) (panic what)) by (intro s; exact I). unfold binary.
  destruct a, b; try exact P; repeat match goal with |- errless (if ?c then _ else _) => destruct c | |- errless (match ?c with _ => _ end) => destruct c end; try exact P; try apply ne_ret. apply H.
Qed.
#[export] Hint Resolve ne_binary : ne.
Lemma ne_v_add {S} (p : profile) (a b : value) : errless (@v_add S p a b).
Proof. unfold v_add. apply ne_binary; intros. ne. Qed.
#[export] Hint Resolve ne_v_add : ne.
Lemma ne_v_sub {S} (p : profile) (a b : value) : errless (@v_sub S p a b).
Proof. unfold v_sub. apply ne_binary; intros. ne. Qed.
#[export] Hint Resolve ne_v_sub : ne.
Lemma ne_v_mul {S} (p : profile) (a b : value) : errless (@v_mul S p a b).
Proof. unfold v_mul. apply ne_binary; intros. ne. Qed.
#[export] Hint Resolve ne_v_mul : ne.
Lemma ne_v_div {S} (a b : value) : errless (@v_div S a b).
Proof. unfold v_div. apply ne_binary; intros. ne. Qed.
#[export] Hint Resolve ne_v_div : ne.
Lemma ne_v_rem {S} (a b : value) : errless (@v_rem S a b).
Proof. unfold v_rem. apply ne_binary; intros. ne. Qed.
#[export] Hint Resolve ne_v_rem : ne.
Lemma ne_v_and {S} (a b : value) : errless (@v_and S a b).
Proof. unfold v_and. apply ne_binary; intros. ne. Qed.
#[export] Hint Resolve ne_v_and : ne.
Lemma ne_v_or {S} (a b : value) : errless (@v_or S a b).
Proof. unfold v_or. apply ne_binary; intros. ne. Qed.
#[export] Hint Resolve ne_v_or : ne.
Lemma ne_v_xor {S} (a b : value) : errless (@v_xor S a b).
Proof. unfold v_xor. apply ne_binary; intros. ne. Qed.
#[export] Hint Resolve ne_v_xor : ne.
Lemma ne_v_shl {S} (p : profile) (a b : value) : errless (@v_shl S p a b).
Proof. unfold v_shl. apply ne_binary; intros. ne. Qed.
#[export] Hint Resolve ne_v_shl : ne.
Lemma ne_v_shr {S} (p : profile) (a b : value) : errless (@v_shr S p a b).
Proof. unfold v_shr. apply ne_binary; intros. ne. Qed.
#[export] Hint Resolve ne_v_shr : ne.
Lemma ne_v_neg {S} (p : profile) (a : value) : errless (@v_neg S p a).
Proof. unfold v_neg. ne. Qed.
#[export] Hint Resolve ne_v_neg : ne.
Lemma ne_v_not {S} (a : value) : errless (@v_not S a).
Proof. unfold v_not. ne. Qed.
#[export] Hint Resolve ne_v_not : ne.
Lemma ne_is_null_or_zero {S} (a : value) : errless (@is_null_or_zero S a).
Proof. unfold is_null_or_zero. ne. Qed.
#[export] Hint Resolve ne_is_null_or_zero : ne.
Lemma ne_v_cmp {S} (a : value) (b : value) : errless (@v_cmp S a b).
Proof. unfold v_cmp. ne. Qed.
#[export] Hint Resolve ne_v_cmp : ne.
Lemma ne_v_lt {S} (a : value) (b : value) : errless (@v_lt S a b).
Proof. unfold v_lt. ne. Qed.
#[export] Hint Resolve ne_v_lt : ne.
Lemma ne_v_le {S} (a : value) (b : value) : errless (@v_le S a b).
Proof. unfold v_le. ne. Qed.
#[export] Hint Resolve ne_v_le : ne.
Lemma ne_v_gt {S} (a : value) (b : value) : errless (@v_gt S a b).
Proof. unfold v_gt. ne. Qed.
#[export] Hint Resolve ne_v_gt : ne.
Lemma ne_v_ge {S} (a : value) (b : value) : errless (@v_ge S a b).
Proof. unfold v_ge. ne. Qed.
#[export] Hint Resolve ne_v_ge : ne.
Lemma ne_v_eq {S} (a : value) (b : value) : errless (@v_eq S a b).
Proof. unfold v_eq. ne. Qed.
#[export] Hint Resolve ne_v_eq : ne.
Lemma ne_load (o : obj) (d : N) (n : N) : errless (load o d n).
Proof. unfold load. ne. Qed.
#[export] Hint Resolve ne_load : ne.
Lemma ne_store (o : obj) (d : N) (bs : list byte) : errless (store o d bs).
Proof. unfold store. ne. Qed.
#[export] Hint Resolve ne_store : ne.
Lemma ne_vec_reserve (additional : N) : errless (vec_reserve additional).
Proof. unfold vec_reserve. ne. Qed.
#[export] Hint Resolve ne_vec_reserve : ne.
Lemma ne_vec_resize (n : N) : errless (vec_resize n).
Proof. unfold vec_resize. ne. Qed.
#[export] Hint Resolve ne_vec_resize : ne.
Lemma ne_ensure_size (p : profile) (size : N) : errless (ensure_size p size).
Proof. unfold ensure_size. ne. Qed.
#[export] Hint Resolve ne_ensure_size : ne.
Lemma ne_make_room (p : profile) (size : N) : errless (make_room p size).
Proof. unfold make_room. ne. Qed.
#[export] Hint Resolve ne_make_room : ne.
Lemma ne_add_flag (o : obj) (f : N) : errless (add_flag o f).
Proof. unfold add_flag. ne. Qed.
#[export] Hint Resolve ne_add_flag : ne.
Lemma ne_id_of (t : tref) : errless (id_of t).
Proof. unfold id_of. ne. Qed.
#[export] Hint Resolve ne_id_of : ne.
Lemma ne_alloc (p : profile) (fuel : nat) (t : tref) : errless (alloc fuel p t).
Proof. unfold alloc. ne. Qed.
#[export] Hint Resolve ne_alloc : ne.
Lemma ne_alloc_array (p : profile) (fuel : nat) (element : tref) (length : N) : errless (alloc_array fuel p element length).
Proof. unfold alloc_array. ne. Qed.
#[export] Hint Resolve ne_alloc_array : ne.
Lemma ne_alloc_string (p : profile) (text : list N) : errless (alloc_string p text).
Proof. unfold alloc_string. ne. Qed.
#[export] Hint Resolve ne_alloc_string : ne.
Lemma ne_flags_of (o : obj) : errless (flags_of o).
Proof. unfold flags_of. ne. Qed.
#[export] Hint Resolve ne_flags_of : ne.
Lemma ne_as_array (o : obj) : errless (as_array o).
Proof. unfold as_array. ne. Qed.
#[export] Hint Resolve ne_as_array : ne.
Lemma ne_as_string (o : obj) : errless (as_string o).
Proof. unfold as_string. ne. Qed.
#[export] Hint Resolve ne_as_string : ne.
Lemma ne_raw_object (o : obj) : errless (raw_object o).
Proof. unfold raw_object. ne. Qed.
#[export] Hint Resolve ne_raw_object : ne.
Lemma ne_type_of (o : obj) : errless (type_of o).
Proof. unfold type_of. ne. Qed.
#[export] Hint Resolve ne_type_of : ne.
Lemma ne_set_field (o : obj) (f : field_info) (v : value) : errless (set_field o f v).
Proof. unfold set_field. ne. Qed.
#[export] Hint Resolve ne_set_field : ne.
Lemma ne_held_as (l : list (held * (primitives -> tref))) (q : primitives) (t : tref) : errless (held_as l q t).
Proof. induction l as [|x l IH]; cbn [held_as]; ne. Qed.
#[export] Hint Resolve ne_held_as : ne.
Lemma ne_get_field_value (o : obj) (f : field_info) : errless (get_field_value o f).
Proof. unfold get_field_value. ne. Qed.
#[export] Hint Resolve ne_get_field_value : ne.
Lemma ne_array_slice (o : obj) (h : held) : errless (array_slice o h).
Proof. unfold array_slice. ne. Qed.
#[export] Hint Resolve ne_array_slice : ne.
Lemma ne_slice_get (o : obj) (h : held) (n : N) (i : N) : errless (slice_get o h n i).
Proof. unfold slice_get. ne. Qed.
#[export] Hint Resolve ne_slice_get : ne.
Lemma ne_slice_set (o : obj) (h : held) (n : N) (i : N) (bs : list byte) : errless (slice_set o h n i bs).
Proof. unfold slice_set. ne. Qed.
#[export] Hint Resolve ne_slice_set : ne.
Lemma ne_string_data (o : obj) : errless (string_data o).
Proof. unfold string_data. ne. Qed.
#[export] Hint Resolve ne_string_data : ne.
Lemma ne_push (v : value) : errless (push v).
Proof. unfold push. ne. Qed.
#[export] Hint Resolve ne_push : ne.
Lemma ne_try_pop  : errless (try_pop).
Proof. unfold try_pop. ne. Qed.
#[export] Hint Resolve ne_try_pop : ne.
Lemma ne_pop  : errless (pop).
Proof. unfold pop. ne. Qed.
#[export] Hint Resolve ne_pop : ne.
Lemma ne_pop_i32  : errless (pop_i32).
Proof. unfold pop_i32. ne. Qed.
#[export] Hint Resolve ne_pop_i32 : ne.
Lemma ne_peek_top  : errless (peek_top).
Proof. unfold peek_top. ne. Qed.
#[export] Hint Resolve ne_peek_top : ne.
Lemma ne_stackalloc (n : N) : errless (stackalloc n).
Proof. unfold stackalloc. ne. Qed.
#[export] Hint Resolve ne_stackalloc : ne.
Lemma ne_cell_get (c : cells) (i : N) : errless (cell_get c i).
Proof. unfold cell_get. ne. Qed.
#[export] Hint Resolve ne_cell_get : ne.
Lemma ne_cell_set (c : cells) (i : N) (v : value) : errless (cell_set c i v).
Proof. unfold cell_set. ne. Qed.
#[export] Hint Resolve ne_cell_set : ne.
Lemma ne_code_at (fr : frame) (i : N) : errless (code_at fr i).
Proof. unfold code_at. ne. Qed.
#[export] Hint Resolve ne_code_at : ne.
Lemma ne_get_opcode (fr : frame) : errless (get_opcode fr).
Proof. unfold get_opcode. ne. Qed.
#[export] Hint Resolve ne_get_opcode : ne.
Lemma ne_il_get (fr : frame) (n : N) : errless (il_get fr n).
Proof. unfold il_get. ne. Qed.
#[export] Hint Resolve ne_il_get : ne.
Lemma ne_next (fr : frame) : errless (next fr).
Proof. unfold next. ne. Qed.
#[export] Hint Resolve ne_next : ne.
Lemma ne_il_signed (fr : frame) (n : N) : errless (il_signed fr n).
Proof. unfold il_signed. ne. Qed.
#[export] Hint Resolve ne_il_signed : ne.
Lemma ne_ldc (fr : frame) (v : value) : errless (ldc fr v).
Proof. unfold ldc. ne. Qed.
#[export] Hint Resolve ne_ldc : ne.
Lemma ne_ld (fr : frame) (c : cells) (i : N) : errless (ld fr c i).
Proof. unfold ld. ne. Qed.
#[export] Hint Resolve ne_ld : ne.
Lemma ne_st (fr : frame) (c : cells) (i : N) : errless (st fr c i).
Proof. unfold st. ne. Qed.
#[export] Hint Resolve ne_st : ne.
Lemma ne_ld_n (n : N) (fr : frame) (c : cells) : errless (ld_n n fr c).
Proof. unfold ld_n. ne. Qed.
#[export] Hint Resolve ne_ld_n : ne.
Lemma ne_st_n (n : N) (fr : frame) (c : cells) : errless (st_n n fr c).
Proof. unfold st_n. ne. Qed.
#[export] Hint Resolve ne_st_n : ne.
Lemma ne_br (n : N) (fr : frame) : errless (br n fr).
Proof. unfold br. ne. Qed.
#[export] Hint Resolve ne_br : ne.
Lemma ne_br_if (n : N) (fr : frame) (zero : bool) : errless (br_if n fr zero).
Proof. unfold br_if. ne. Qed.
#[export] Hint Resolve ne_br_if : ne.
Lemma ne_br_cmp (n : N) (fr : frame) (test : value -> value -> M machine bool) : (forall a b, errless (test a b)) -> errless (br_cmp n fr test).
Proof. intro. unfold br_cmp. ne. Qed.
#[export] Hint Resolve ne_br_cmp : ne.
Lemma ne_compare (fr : frame) (test : value -> value -> M machine bool) : (forall a b, errless (test a b)) -> errless (compare fr test).
Proof. intro. unfold compare. ne. Qed.
#[export] Hint Resolve ne_compare : ne.
Lemma ne_eq_test (a : value) (b : value) : errless (eq_test a b).
Proof. unfold eq_test. ne. Qed.
#[export] Hint Resolve ne_eq_test : ne.
Lemma ne_op2 (fr : frame) (f : value -> value -> M machine value) : (forall a b, errless (f a b)) -> errless (op2 fr f).
Proof. intro. unfold op2. ne. Qed.
#[export] Hint Resolve ne_op2 : ne.
Lemma ne_op1 (fr : frame) (f : value -> M machine value) : (forall a, errless (f a)) -> errless (op1 fr f).
Proof. intro. unfold op1. ne. Qed.
#[export] Hint Resolve ne_op1 : ne.
Ltac ne ::= repeat first [ne_auto | match goal with |- errless (op1 _ _) => apply ne_op1; intros | |- errless (op2 _ _) => apply ne_op2; intros | |- errless (br_cmp _ _ _) => apply ne_br_cmp; intros | |- errless (compare _ _) => apply ne_compare; intros end | ne_step].
Lemma ne_pop_args (c : cells) (n : nat) : errless (pop_args c n).
Proof. induction n as [|n IH]; cbn [pop_args]; ne. Qed.
#[export] Hint Resolve ne_pop_args : ne.
Lemma ne_newarr (p : profile) (fuel : nat) (fr : frame) : errless (newarr fuel p fr).
Proof. unfold newarr. ne. Qed.
#[export] Hint Resolve ne_newarr : ne.
Lemma ne_ret_op (fr : frame) : errless (ret_op fr).
Proof. unfold ret_op. ne. Qed.
#[export] Hint Resolve ne_ret_op : ne.
Lemma ne_console_write (args : cells) : errless (console_write args).
Proof. unfold console_write. ne. Qed.
#[export] Hint Resolve ne_console_write : ne.
Lemma ne_push_if (o : option value) : errless (push_if o).
Proof. unfold push_if. ne. Qed.
#[export] Hint Resolve ne_push_if : ne.

(** ** Texts that go along with errors *)

(** The text [t] goes along with [m]: there is one exactly if [m] ends with an error, and it starts with
    that error. *)
Definition tells (v : vm) {A} (m : M machine A) (t : M machine (option name)) : Prop :=
  forall s, x_vm s = v ->
    match m s with
    | Err e _ => exists rest s1, t s = Ok (Some (bytes_of_string e ++ rest)) s1
    | _ => forall x s1, t s <> Ok (Some x) s1
    end.
Lemma tl_bind v {A B} (m : M machine A) (k : A -> M machine B) t : errless m -> silent m ->
  (forall a, tells v (k a) (t a)) -> tells v (bind m k) (bind m t).
Proof.
  intros Hm Sm Hk s V. unfold bind. specialize (Hm s). specialize (Sm s).
  destruct (m s) as [a s1|e s1|w|w|]; try discriminate; [apply Hk; congruence|contradiction].
Qed.
Lemma tl_none v {A} (m : M machine A) : errless m -> tells v m (ret None).
Proof. intros H s _. specialize (H s). unfold ret. destruct (m s); try discriminate. contradiction. Qed.
Lemma tl_fail v {A} e rest : tells v (@fail machine A e) (ret (Some (bytes_of_string e ++ rest))).
Proof. intros s _. exists rest, s. reflexivity. Qed.
Lemma tl_assoc v {A B C} (m : M machine A) (k : A -> M machine B) (l : B -> M machine C) t :
  tells v (bind m (fun a => bind (k a) l)) t -> tells v (bind (bind m k) l) t.
Proof. intros H s V. specialize (H s V). unfold bind in *. destruct (m s); exact H. Qed.
Lemma bytes_app a b : bytes_of_string (a ++ b) = bytes_of_string a ++ bytes_of_string b.
Proof. induction a as [|c a IH]; [reflexivity|]. exact (f_equal (cons _) IH). Qed.

Lemma silent_on_vm {A} (m : M vm A) : pure m -> silent (on_vm m).
Proof. intros H s. unfold on_vm. specialize (H (x_vm s)). destruct (m (x_vm s)); subst; auto. Qed.
Lemma silent_il_get fr n : silent (il_get fr n).
Proof. intro s. unfold il_get. destruct (_ <=? _); cbn; auto. Qed.
Lemma silent_unwrap {A} (o : option A) : silent (unwrap o).
Proof. intro s. destruct o; cbn; auto. Qed.
Lemma silent_alloc f p t : silent (alloc f p t).
Proof.
  intro s. destruct (alloc f p t s) as [o s1|e s1|w|w|] eqn:E; auto; [exact (alloc_vm _ _ _ _ _ _ E)|].
  pose proof (ne_alloc p f t s) as H. rewrite E in H. contradiction.
Qed.
Lemma silent_load o d n : silent (load o d n).
Proof. intro s. unfold load. destruct (negb _); auto. destruct (_ <=? _); auto. Qed.
Lemma silent_as_array o : silent (as_array o).
Proof. unfold as_array, flags_of. repeat (apply silent_bind; [|intro]); try apply silent_load; intro s; reflexivity. Qed.
Lemma silent_array_slice o h : silent (array_slice o h).
Proof.
  unfold array_slice. apply silent_bind; [apply silent_on_vm, pure_the_primitives|intro q].
  apply silent_bind; [apply silent_on_vm|intro i].
  { intro s. unfold id_of, bind, the_type. destruct (nth_error _ _); reflexivity. }
  apply silent_bind; [apply silent_load|intro b]. destruct (_ =? _); [|intro s; reflexivity].
  apply silent_bind; [apply silent_load|intro l]. apply silent_bind; [apply silent_load|intros _ s; reflexivity].
Qed.
Lemma silent_pop_i32 : silent pop_i32.
Proof. unfold pop_i32. apply silent_bind; [apply silent_pop|intro v]. destruct v as [[]| | |]; intro s; cbn; auto. Qed.

Ltac tl := apply tl_bind; [ne|first [apply silent_il_get|apply silent_on_vm|apply silent_unwrap|apply silent_alloc|apply silent_pop_i32|apply silent_pop|apply silent_as_array|apply silent_array_slice|idtac]|].

Lemma bind_at {S A B} (m : M S A) (k : A -> M S B) s : bind m k s =
  match m s with Ok a s1 => k a s1 | Err e s1 => Err e s1 | Panic w => Panic w | Ub w => Ub w | NoFuel => NoFuel end.
Proof. reflexivity. Qed.
Lemma tl_method_call v p fr tok r : tells v (method_call p fr tok r) (method_call_text p fr tok).
Proof.
  intros s V. unfold method_call, method_call_text.
  pose proof (ne_on_vm _ (ne_resolve_method p (fr_assembly fr) tok) s) as N.
  assert (A : forall o s1, on_vm (resolve_method p (fr_assembly fr) tok) s = Ok o s1 -> exists ai, on_vm (the_assembly (fr_assembly fr)) s1 = Ok ai s1).
  { intros o s1 H. pose proof (silent_on_vm _ (pure_resolve_method p (fr_assembly fr) tok) s) as Q. rewrite H in Q. revert H.
    unfold on_vm, resolve_method, bind at 1, the_assembly.
    rewrite Q. destruct (nth_error (c_arena (x_vm s)) (fr_assembly fr)) as [[ai|]|] eqn:E; try discriminate. intros _. exists ai.
    rewrite <- Q. destruct s1. reflexivity. }
  rewrite (bind_at (on_vm (resolve_method p (fr_assembly fr) tok)) _ s).
  match goal with |- match _ with Ok _ _ => forall x s1, bind ?m ?k s <> _ | _ => _ end => rewrite (bind_at m k s) end.
  destruct (on_vm (resolve_method p (fr_assembly fr) tok) s) as [[m|] s1|e s1|w|w|]; try discriminate; try contradiction.
  - refine (tl_none (x_vm s1) _ _ s1 eq_refl). ne.
  - destruct (A None s1 eq_refl) as [ai E]. unfold bind. rewrite E. cbn [fail ret].
    exists (bytes_of_string " " ++ token_text tok ++ bytes_of_string " in " ++ a_name ai), s1. reflexivity.
Qed.
Lemma tl_newobj v fuel p fr : tells v (newobj fuel p fr) (newobj_text fuel p fr).
Proof.
  unfold newobj, newobj_text. tl. intros [tok fr1]. tl; [apply pure_resolve_method|]. intro o. tl. intro c.
  tl. intro ob. tl; [|intros _; apply tl_method_call]. intro s. cbv beta zeta. destruct (Nat.leb _ _); cbn; auto.
Qed.
Lemma tl_stfld v pr p fr : tells v (stfld p fr) (stfld_text pr p fr).
Proof.
  unfold stfld, stfld_text. tl. intros [tok fr1]. tl; [apply pure_resolve_field|]. intro o. tl. intro f. tl. intro x. tl. intro w.
  destruct w; [exact (tl_fail v "Cannot store field in" (bytes_of_string " " ++ _))..|]. apply tl_none. ne.
Qed.
Lemma tl_ldfld v pr p fr : tells v (ldfld p fr) (ldfld_text pr p fr).
Proof.
  unfold ldfld, ldfld_text. tl. intros [tok fr1]. tl; [apply pure_resolve_field|]. intro o. tl. intro f. tl. intro w.
  destruct w; [exact (tl_fail v "Cannot load field from" (bytes_of_string " " ++ _))..|]. apply tl_none. ne.
Qed.
Lemma tl_array p v {A} pr (k : obj -> N -> M machine A) : consistent p v -> (forall o n, errless (k o n)) ->
  tells v (o <- pop_array ;; n <- i32_slice o ;; k o n) (array_text pr).
Proof.
  intros W K. unfold pop_array, array_text. apply tl_assoc. tl. intro x. destruct x as [t x|b|b|o];
    [exact (tl_fail v "Invalid operation: Stelem on" (bytes_of_string " " ++ _))..|].
  apply tl_assoc. tl. intro b. destruct b; [|exact (tl_fail v "Invalid operation: Stelem on" (bytes_of_string " " ++ _))].
  change (tells v (n <- i32_slice o ;; k o n) (n <- array_slice o (HInt I32) ;;
        match n with
        | Some _ => ret None
        | None =>
            t <- type_of o ;;
            u <- on_vm (named "System.Int32[]") ;;
            x <- on_vm (type_text t) ;;
            y <- on_vm (type_text u) ;;
            ret (Some (bytes_of_string "Cannot use " ++ x ++ bytes_of_string " as " ++ y))
        end)).
  unfold i32_slice. apply tl_assoc. tl. intros [n|]; [apply tl_none; intro s; apply K|].
  intros s V. unfold type_of. unfold bind, load. destruct (negb _); [discriminate|]. destruct (_ <=? _); [|discriminate].
  destruct (_ <? _) eqn:L; [|discriminate]. unfold named, get_type, bind, unwrap, on_vm.
  pose proof (map_ok _ _ W (bytes_of_string "System.Int32[]")) as M. rewrite <- V in M.
  destruct (map_get bytes_eqb (bytes_of_string "System.Int32[]") (c_type_map (x_vm s))) as [u|]; [|discriminate]. cbn [ret fail].
  unfold type_text, bind, the_type. apply N.ltb_lt in L. cbn [x_vm set_vm].
  destruct (nth_error (c_types (x_vm s)) (N.to_nat (le_dec (sub_list (o_off o + 1) 4 (h_mem (x_heap s)))))) as [ti|] eqn:E.
  2:{ exfalso. apply nth_error_None in E. unfold len in L. lia. }
  cbn [ret]. destruct M as [(ui & Eu & _) _]. cbn [x_vm set_vm]. rewrite Eu. cbn [ret].
  exists (bytes_of_string " " ++ ti_full_name ti ++ bytes_of_string " as " ++ ti_full_name ui). eexists. reflexivity.
Qed.
Lemma tl_stelem p v pr fr : consistent p v -> tells v (stelem_i4 fr) (stelem_i4_text pr).
Proof.
  intro W. unfold stelem_i4, stelem_i4_text. tl. intro x. tl. intro i.
  apply (tl_array p v pr (fun o n => slice_set o (HInt I32) n (to_unsigned 64 i) (le_enc 4 (to_unsigned 32 x)) ;;; next fr) W).
  intros. ne.
Qed.
Lemma tl_ldelem p v pr fr : consistent p v -> tells v (ldelem_i4 fr) (ldelem_i4_text pr).
Proof.
  intro W. unfold ldelem_i4, ldelem_i4_text. tl. intro i.
  apply (tl_array p v pr (fun o n => bs <- slice_get o (HInt I32) n (to_unsigned 64 i) ;; push (VInt I32 (to_signed 32 (le_dec bs))) ;;; next fr) W).
  intros. ne.
Qed.
Lemma tl_ldstr v p fr : tells v (ldstr p fr) (ldstr_text p fr).
Proof.
  unfold ldstr, ldstr_text. tl. intros [tok fr1]. tl; [apply pure_get_string|]. intros [text|]; [apply tl_none; ne|].
  exact (tl_fail v "Cannot find string for token" (bytes_of_string " " ++ _)).
Qed.
Lemma tl_exec_op v pr fuel p op fr : consistent p v -> tells v (exec_op fuel p op fr) (op_text pr fuel p op fr).
Proof.
  intro W. destruct (never_fails op) eqn:N.
  - assert (E : errless (exec_op fuel p op fr)) by (clear W; destruct op; try discriminate N; unfold exec_op; cbv zeta; ne).
    assert (T : op_text pr fuel p op fr = ret None) by (destruct op; try discriminate N; reflexivity). rewrite T. now apply tl_none.
  - assert (U : exec_op fuel p op fr = fail ("Use of unimplemented instruction " ++ opcode_name op) ->
      op_text pr fuel p op fr = ret (Some (unimplemented_text op fr)) -> tells v (exec_op fuel p op fr) (op_text pr fuel p op fr)).
    { intros -> ->. unfold unimplemented_text. rewrite !bytes_app, <- !app_assoc, app_assoc, <- bytes_app. apply tl_fail. }
    destruct op; try discriminate N; try (exact (U eq_refl eq_refl)); clear U.
    + unfold exec_op, op_text. tl. intros [tok fr1]. apply tl_method_call.
    + apply tl_ldstr.
    + apply tl_newobj.
    + apply tl_ldfld.
    + apply tl_stfld.
    + now apply (tl_ldelem p).
    + now apply (tl_stelem p).
Qed.
Lemma tl_step v pr fuel p fr : consistent p v -> tells v (step fuel p fr) (step_text pr fuel p fr).
Proof.
  intro W. unfold step, step_text. tl.
  - intro s. unfold get_opcode, bind, code_at. destruct (nth_error _ _) as [b|]; [|exact I]. cbn [ret]. destruct (_ <? _).
    + destruct (nth_error _ _) as [c|]; [|exact I]. cbn [ret]. unfold unwrap. destruct (from_u16 _); cbn; auto.
    + unfold unwrap. destruct (from_u16 _); cbn; auto.
  - intros [op fr1]. now apply tl_exec_op.
Qed.

(** Invariants of single instructions.  [invariant I] collects what has to be shown about the
    primitive operations of the machine for [I] to be preserved by every instruction. *)
From Coq Require Import NArith ZArith Arith Lia String List Bool.
From Coq.Strings Require Import Byte.
From Verif Require Import Base BaseFacts Metadata Blob Utf Runtime Value Opcodes Gc Interp SpecExec InterpFacts.
Import ListNotations.
Open Scope N_scope.

(** ** Operations on the runtime that do not change it *)

Definition pure {S A} (m : M S A) : Prop :=
  forall s, match m s with Ok _ s' | Err _ s' => s' = s | _ => True end.

Lemma pure_ret {S A} (a : A) : @pure S A (ret a). Proof. intro s. reflexivity. Qed.
Lemma pure_fail {S A} e : @pure S A (fail e). Proof. intro s. reflexivity. Qed.
Lemma pure_panic {S A} e : @pure S A (panic e). Proof. intro s. exact I. Qed.
Lemma pure_ub {S A} e : @pure S A (ub e). Proof. intro s. exact I. Qed.
Lemma pure_nofuel {S A} : @pure S A nofuel. Proof. intro s. exact I. Qed.
Lemma pure_bind {S A B} (m : M S A) (k : A -> M S B) : pure m -> (forall a, pure (k a)) -> pure (bind m k).
Proof.
  intros Hm Hk s. unfold bind. specialize (Hm s). destruct (m s) as [a s1|e s1|w|w|]; auto.
  subst s1. apply Hk.
Qed.
Lemma pure_lift {S A} (m : M unit A) : @pure S A (lift m).
Proof. intro s. unfold lift. destruct (m tt); auto. Qed.
Lemma pure_unwrap {S A} (o : option A) : @pure S A (unwrap o).
Proof. destruct o; [apply pure_ret|apply pure_panic]. Qed.
Lemma pure_ovf {S A} (o : option A) : @pure S A (ovf o).
Proof. destruct o; [apply pure_ret|apply pure_panic]. Qed.
Lemma pure_fold_m {S A B} (f : A -> B -> M S A) : (forall a x, pure (f a x)) -> forall l a, pure (fold_m f a l).
Proof. intro H. induction l as [|x l IH]; intro a; cbn [fold_m]; [apply pure_ret|apply pure_bind; auto]. Qed.

Ltac pur := repeat first
  [ apply pure_ret | apply pure_fail | apply pure_panic | apply pure_ub | apply pure_nofuel
  | apply pure_lift | apply pure_unwrap | apply pure_ovf
  | apply pure_bind; [|intro] ].

Lemma pure_the_type t : pure (the_type t).
Proof. intro s. unfold the_type. destruct (nth_error _ _); auto. Qed.
Lemma pure_the_assembly a : pure (the_assembly a).
Proof. intro s. unfold the_assembly. destruct (nth_error _ _) as [[|]|]; auto. Qed.
Lemma pure_get_type n : pure (get_type n). Proof. intro s. reflexivity. Qed.
Lemma pure_named n : pure (named n).
Proof. unfold named. apply pure_bind; [apply pure_get_type|intro]. pur. Qed.
Lemma pure_type_eq t u : pure (type_eq t u).
Proof. unfold type_eq. apply pure_bind; [apply pure_the_type|intro]. apply pure_bind; [apply pure_the_type|intro]. pur. Qed.
Lemma pure_the_primitives : pure the_primitives.
Proof. intro s. unfold the_primitives. destruct (c_primitives s); auto. Qed.
Lemma pure_get_row {A} p (l : list A) tok : pure (get_row p l tok).
Proof. unfold get_row. destruct (u_sub _ _ _ _); pur. Qed.
Lemma pure_resolve_method p a tok : pure (resolve_method p a tok).
Proof.
  unfold resolve_method. apply pure_bind; [apply pure_the_assembly|intro ai].
  destruct (_ =? _); [apply pure_get_row|]. destruct (_ =? _); [apply pure_get_row|pur].
Qed.
Lemma pure_resolve_field p a tok : pure (resolve_field p a tok).
Proof.
  unfold resolve_field. apply pure_bind; [apply pure_the_assembly|intro ai].
  destruct (_ =? _); [apply pure_get_row|pur].
Qed.
Lemma pure_resolve_type p a tok : pure (resolve_type p a tok).
Proof.
  unfold resolve_type. apply pure_bind; [apply pure_the_assembly|intro ai].
  destruct (_ =? _); [apply pure_get_row|]. destruct (_ =? _); [apply pure_get_row|pur].
Qed.
Lemma pure_get_string p a tok : pure (get_string p a tok).
Proof.
  unfold get_string. apply pure_bind; [apply pure_the_assembly|intro ai].
  destruct (_ =? _); [|pur]. pur. destruct a1; pur.
Qed.
Lemma pure_id_of t : pure (id_of t).
Proof. unfold id_of. apply pure_bind; [apply pure_the_type|intro]. pur. Qed.
Lemma pure_held_as l q t : pure (held_as l q t).
Proof.
  induction l as [|[h pt] l IH]; cbn [held_as]; [pur|].
  apply pure_bind; [apply pure_type_eq|intros [|]; [pur|exact IH]].
Qed.
Lemma pure_contains_type l u : pure (contains_type l u).
Proof.
  induction l as [|t l IH]; cbn [contains_type]; [pur|].
  apply pure_bind; [apply pure_type_eq|intros [|]; [pur|exact IH]].
Qed.
Lemma pure_instance_of : forall f t u, pure (instance_of f t u).
Proof.
  induction f as [|f IH]; intros t u; cbn [instance_of]; [pur|].
  apply pure_bind; [apply pure_type_eq|intros [|]; [pur|]].
  apply pure_bind; [apply pure_the_type|intro ti].
  destruct (ti_base ti); [apply IH|apply pure_contains_type].
Qed.
Lemma pure_is_reference_type f t : pure (is_reference_type f t).
Proof.
  unfold is_reference_type. apply pure_bind; [apply pure_named|intro v].
  apply pure_bind; [apply pure_instance_of|intro]. pur.
Qed.
Lemma pure_try_sizes l t : pure (try_sizes l t).
Proof.
  induction l as [|[n k] l IH]; cbn [try_sizes]; [pur|].
  apply pure_bind; [apply pure_named|intro u].
  apply pure_bind; [apply pure_type_eq|intros [|]; [pur|exact IH]].
Qed.
Lemma pure_type_size p : forall f t, pure (type_size f p t).
Proof.
  induction f as [|f IH]; intro t; cbn [type_size]; [pur|].
  apply pure_bind; [apply pure_try_sizes|intros [n|]; [pur|]].
  apply pure_bind; [apply pure_the_type|intro ti].
  apply pure_bind.
  - apply pure_fold_m. intros a x. apply pure_bind; [apply pure_is_reference_type|intro r].
    apply pure_bind; [destruct r; [pur|apply IH]|intro n; pur].
  - intro size. destruct (ti_base ti); [apply pure_bind; [apply IH|intro; pur]|pur].
Qed.

Create HintDb pure.
Global Hint Resolve pure_the_type pure_the_assembly pure_get_type pure_named pure_type_eq
  pure_the_primitives pure_resolve_method pure_resolve_field pure_resolve_type pure_get_string
  pure_id_of pure_held_as pure_type_size : pure.

Lemma pure_on_vm {A} (m : M vm A) : pure m -> pure (on_vm m).
Proof.
  intros H s. unfold on_vm. specialize (H (x_vm s)). destruct (m (x_vm s)); auto; subst; now destruct s.
Qed.

(** A frame that differs from another one in its instruction pointer only. *)
Definition same_frame (fr fr' : frame) : Prop :=
  fr_method fr' = fr_method fr /\ fr_assembly fr' = fr_assembly fr /\ fr_code fr' = fr_code fr /\
  fr_locals fr' = fr_locals fr /\ fr_params fr' = fr_params fr.
Lemma same_frame_refl fr : same_frame fr fr. Proof. repeat split. Qed.
Lemma same_frame_ip fr fr' ip : same_frame fr fr' -> same_frame fr (set_ip fr' ip).
Proof. intro H. exact H. Qed.
Lemma same_frame_trans a b c : same_frame a b -> same_frame b c -> same_frame a c.
Proof. unfold same_frame. intuition congruence. Qed.
Global Hint Resolve same_frame_refl same_frame_ip : core.

(** ** Preservation *)

Section Keeps.
  Variable I : machine -> Prop.

  Definition keeps {A} (m : M machine A) (Q : A -> machine -> Prop) : Prop :=
    forall s, I s -> match m s with Ok a s' => I s' /\ Q a s' | Err _ s' => I s' | _ => True end.

  Lemma keeps_bind {A B} (m : M machine A) (k : A -> M machine B) Q Q' :
    keeps m Q -> (forall a, keeps (fun s => match m s with _ => k a s end) Q' \/
                            forall s, I s -> Q a s -> match k a s with Ok b s' => I s' /\ Q' b s' | Err _ s' => I s' | _ => True end) ->
    keeps (bind m k) Q'.
  Proof.
    intros Hm Hk s Hs. unfold bind. specialize (Hm s Hs). destruct (m s) as [a s1|e s1|w|w|]; auto.
    destruct Hm as [H1 H2]. destruct (Hk a) as [H|H]; [|now apply H].
    specialize (H s1 H1). destruct (m s1); exact H.
  Qed.
  Lemma keeps_then {A B} (m : M machine A) (k : A -> M machine B) (Q : A -> machine -> Prop) Q' :
    keeps m Q -> (forall a s, I s -> Q a s -> match k a s with Ok b s' => I s' /\ Q' b s' | Err _ s' => I s' | _ => True end) ->
    keeps (bind m k) Q'.
  Proof. intros Hm Hk. eapply keeps_bind; [exact Hm|]. intro a. right. apply Hk. Qed.
  (** With a property of the result that does not depend on the state. *)
  Lemma keeps_seq {A B} (m : M machine A) (k : A -> M machine B) (P : A -> Prop) Q :
    keeps m (fun a _ => P a) -> (forall a, P a -> keeps (k a) Q) -> keeps (bind m k) Q.
  Proof. intros Hm Hk. eapply keeps_then; [exact Hm|]. intros a s Hs Ha. now apply Hk. Qed.
  Lemma keeps_weaken {A} (m : M machine A) (Q Q' : A -> machine -> Prop) :
    keeps m Q -> (forall a s, Q a s -> Q' a s) -> keeps m Q'.
  Proof. intros H HQ s Hs. specialize (H s Hs). destruct (m s); intuition. Qed.
  Lemma keeps_pure {A} (m : M machine A) : pure m -> keeps m (fun _ _ => True).
  Proof. intros H s Hs. specialize (H s). destruct (m s); subst; auto. Qed.
  Lemma keeps_ret {A} (a : A) (Q : A -> machine -> Prop) : (forall s, Q a s) -> keeps (ret a) Q.
  Proof. intros H s Hs. cbn. auto. Qed.
  Lemma keeps_fail {A} e (Q : A -> machine -> Prop) : keeps (fail e) Q.
  Proof. intros s Hs. exact Hs. Qed.
  Lemma keeps_panic {A} e (Q : A -> machine -> Prop) : keeps (panic e) Q.
  Proof. intros s Hs. exact Logic.I. Qed.
  Lemma keeps_ub {A} e (Q : A -> machine -> Prop) : keeps (ub e) Q.
  Proof. intros s Hs. exact Logic.I. Qed.
End Keeps.

Definition whatever {A} (_ : A) : Prop := True.

(** What has to be shown about the primitive operations.
    [P] is what holds for the arguments of a call that an instruction has prepared. *)
Record invariant (p : profile) (I : machine -> Prop)
    (P : method_info -> cells -> option value -> machine -> Prop) : Prop := {
  i_operands : forall s l, I s -> I (set_operands s l);
  i_store : forall o d bs, keeps I (store o d bs) (fun _ _ => True);
  i_room : forall n, keeps I (make_room p n) (fun _ _ => True);
  i_array_of : forall t, keeps I (on_vm (array_of p t)) (fun _ _ => True);
  i_call : forall m result,
    keeps I (let n := if mt_static m then len (mt_params m) else len (mt_params m) + 1 in
             c <- stackalloc n ;; pop_args c (N.to_nat n) ;;; ret c)
            (fun c s => P m c result s) }.

(** The same for the stores to variables of [fr]. *)
Definition writable (fr : frame) (I : machine -> Prop) : Prop :=
  forall c i v, c = fr_locals fr \/ c = fr_params fr -> keeps I (cell_set c i v) (fun _ _ => True).

Section Instructions.
  Variables (p : profile) (fr0 : frame) (I : machine -> Prop)
            (P : method_info -> cells -> option value -> machine -> Prop).
  Hypothesis Inv : invariant p I P.

  Definition goes (o : outcome) (s : machine) : Prop :=
    match o with
    | ONext fr' => same_frame fr0 fr'
    | OReturn _ => True
    | OCall m c r fr' => same_frame fr0 fr' /\ P m c r s
    end.

  Notation kp m := (keeps I m (fun a _ => whatever a)).

  Lemma kp_push v : kp (push v).
  Proof. intros s Hs. split; [now apply (i_operands _ _ _ Inv)|exact Logic.I]. Qed.
  Lemma kp_try_pop : kp try_pop.
  Proof. intros s Hs. unfold try_pop. destruct (x_operands s); (split; [|exact Logic.I]); auto. now apply (i_operands _ _ _ Inv). Qed.
  Lemma kp_pure {A} (m : M machine A) : pure m -> kp m.
  Proof. intro H. eapply keeps_weaken; [now apply keeps_pure|]. intros; exact Logic.I. Qed.
  Lemma kp_seq {A B} (m : M machine A) (k : A -> M machine B) : kp m -> (forall a, kp (k a)) -> kp (bind m k).
  Proof. intros Hm Hk. eapply keeps_seq; [exact Hm|]. auto. Qed.
  Lemma kp_any {A} (m : M machine A) : keeps I m (fun _ _ => True) -> kp m.
  Proof. exact (fun H => H). Qed.
  Lemma kp_pop : kp pop.
  Proof. apply kp_seq; [apply kp_try_pop|intro o; apply kp_pure, pure_unwrap]. Qed.
  Lemma kp_pop_i32 : kp pop_i32.
  Proof. apply kp_seq; [apply kp_pop|intro v; apply kp_pure]. destruct v as [[]| | |]; pur. Qed.
  Lemma pure_load o d n : pure (load o d n).
  Proof. intro s. unfold load. destruct (negb _); auto. destruct (_ <=? _); auto. Qed.
  Lemma pure_flags o : pure (flags_of o).
  Proof. apply pure_bind; [apply pure_load|intro; pur]. Qed.
  Lemma kp_pop_array : kp pop_array.
  Proof.
    apply kp_seq; [apply kp_pop|intro v; apply kp_pure]. destruct v; try (pur; fail).
    apply pure_bind; [apply pure_bind; [apply pure_flags|intro; pur]|intros [|]; pur].
  Qed.
  Lemma kp_vm {A} (m : M vm A) : pure m -> kp (on_vm m).
  Proof. intro H. now apply kp_pure, pure_on_vm. Qed.
  Lemma kp_store o d bs : kp (store o d bs). Proof. apply (i_store _ _ _ Inv). Qed.
  Lemma kp_room n : kp (make_room p n). Proof. apply (i_room _ _ _ Inv). Qed.
  Lemma kp_add_flag o f : kp (add_flag o f).
  Proof. apply kp_seq; [apply kp_pure, pure_load|intro; apply kp_store]. Qed.
  Lemma kp_alloc fuel t : kp (alloc fuel p t).
  Proof.
    apply kp_seq; [apply kp_vm, pure_type_size|intro n]. apply kp_seq; [apply kp_pure, pure_ovf|intro size].
    apply kp_seq; [apply kp_room|intro o]. apply kp_seq; [apply kp_vm, pure_id_of|intro id].
    apply kp_seq; [apply kp_store|intros []]. apply kp_pure, pure_ret.
  Qed.
  Lemma kp_alloc_array fuel t n : kp (alloc_array fuel p t n).
  Proof.
    apply kp_seq; [apply kp_vm, pure_type_size|intro k]. apply kp_seq; [apply kp_pure, pure_ovf|intro m].
    apply kp_seq; [apply kp_pure, pure_ovf|intro size].
    apply kp_seq; [apply kp_room|intro o]. apply kp_seq; [apply kp_add_flag|intros []].
    apply kp_seq; [apply (i_array_of _ _ _ Inv)|intro u]. apply kp_seq; [apply kp_vm, pure_id_of|intro id].
    apply kp_seq; [apply kp_store|intros []]. apply kp_seq; [apply kp_vm, pure_id_of|intro id'].
    apply kp_seq; [apply kp_store|intros []]. apply kp_seq; [apply kp_store|intros []].
    apply kp_pure, pure_ret.
  Qed.
  Lemma kp_alloc_string text : kp (alloc_string p text).
  Proof.
    apply kp_seq; [apply kp_pure, pure_ovf|intro m]. apply kp_seq; [apply kp_pure, pure_ovf|intro size].
    apply kp_seq; [apply kp_room|intro o]. apply kp_seq; [apply kp_add_flag|intros []].
    apply kp_seq; [apply kp_vm, pure_named|intro u]. apply kp_seq; [apply kp_vm, pure_id_of|intro id].
    do 3 (apply kp_seq; [apply kp_store|intros []]). apply kp_pure, pure_ret.
  Qed.
  Lemma pure_cell_get c i : pure (cell_get c i).
  Proof.
    intro s. unfold cell_get. destruct c.
    - destruct (nth_error _ _); auto.
    - destruct (_ <=? _); auto. destruct (negb _); auto. destruct (nth_error _ _); auto.
  Qed.
  Lemma pure_array_slice o h : pure (array_slice o h).
  Proof.
    apply pure_bind; [apply pure_on_vm, pure_the_primitives|intro q].
    apply pure_bind; [apply pure_on_vm, pure_id_of|intro id].
    apply pure_bind; [apply pure_load|intro e]. destruct (_ =? _); [|pur].
    apply pure_bind; [apply pure_load|intro l]. apply pure_bind; [apply pure_load|intro; pur].
  Qed.
  Lemma pure_type_of o : pure (type_of o).
  Proof. apply pure_bind; [apply pure_load|intro b]. intro s. destruct (_ <? _); auto. Qed.
  Lemma pure_i32_slice o : pure (i32_slice o).
  Proof.
    apply pure_bind; [apply pure_array_slice|intros [n|]; [pur|]].
    apply pure_bind; [apply pure_type_of|intros _].
    apply pure_bind; [apply pure_on_vm, pure_named|intros _; pur].
  Qed.
  Lemma pure_raw_object o : pure (raw_object o).
  Proof. apply pure_bind; [apply pure_flags|intro f]. destruct (_ =? _); pur. Qed.
  Lemma kp_set_field o f v : kp (set_field o f v).
  Proof.
    apply kp_seq; [apply kp_pure, pure_raw_object|intros []].
    destruct (held_bytes v) as [[h bs]|]; [apply kp_store|apply kp_pure; pur].
  Qed.
  Lemma pure_get_field_value o f : pure (get_field_value o f).
  Proof.
    apply pure_bind; [apply pure_raw_object|intros _].
    apply pure_bind; [apply pure_on_vm, pure_the_primitives|intro q].
    apply pure_bind; [apply pure_on_vm, pure_held_as|intros [h|]; [|pur]].
    apply pure_bind; [apply pure_load|intro bs]. destruct (held_value h bs); pur.
  Qed.

  (** Results of the form "go on with this frame". *)
  Lemma gp_next fr : same_frame fr0 fr -> keeps I (next fr) goes.
  Proof. intros H s Hs. cbn. auto. Qed.
  Lemma gp_seq {A} (m : M machine A) (k : A -> M machine outcome) : kp m -> (forall a, keeps I (k a) goes) -> keeps I (bind m k) goes.
  Proof. intros Hm Hk. eapply keeps_seq; [exact Hm|]. auto. Qed.
  Lemma gp_fail e : keeps I (fail e) goes. Proof. apply keeps_fail. Qed.
  Lemma pure_il_get fr n : pure (il_get fr n).
  Proof. unfold il_get. destruct (_ <=? _); pur. Qed.
  Lemma gp_il_get fr n (k : N * frame -> M machine outcome) : same_frame fr0 fr ->
    (forall x fr', same_frame fr0 fr' -> keeps I (k (x, fr')) goes) -> keeps I (bind (il_get fr n) k) goes.
  Proof.
    intros Hf Hk s Hs. unfold bind, il_get. destruct (_ <=? _); cbn; [|exact Logic.I]. apply Hk; auto.
  Qed.
  Lemma gp_il_signed fr n (k : Z * frame -> M machine outcome) : same_frame fr0 fr ->
    (forall x fr', same_frame fr0 fr' -> keeps I (k (x, fr')) goes) -> keeps I (bind (il_signed fr n) k) goes.
  Proof.
    intros Hf Hk s Hs. unfold bind, il_signed, bind, il_get. destruct (_ <=? _); cbn; [|exact Logic.I]. apply Hk; auto.
  Qed.
  Lemma same_frame_jump fr d : same_frame fr0 fr -> same_frame fr0 (jump fr d).
  Proof. intro H. exact H. Qed.
  Hint Resolve same_frame_jump : core.

  Lemma gp_ldc fr v : same_frame fr0 fr -> keeps I (ldc fr v) goes.
  Proof. intro H. apply gp_seq; [apply kp_push|intros []]. now apply gp_next. Qed.
  Lemma gp_ld fr c i : same_frame fr0 fr -> keeps I (ld fr c i) goes.
  Proof.
    intro H. apply gp_seq; [apply kp_pure, pure_cell_get|intro v].
    apply gp_seq; [apply kp_push|intros []]. now apply gp_next.
  Qed.
  Lemma gp_st fr c i : writable fr0 I -> same_frame fr0 fr -> c = fr_locals fr0 \/ c = fr_params fr0 -> keeps I (st fr c i) goes.
  Proof.
    intros W H Hc. apply gp_seq; [apply kp_pop|intro v].
    apply gp_seq; [now apply W|intros []]. now apply gp_next.
  Qed.
  Lemma gp_ld_n n fr c : same_frame fr0 fr -> keeps I (ld_n n fr c) goes.
  Proof. intro H. apply gp_il_get; [exact H|]. intros. now apply gp_ld. Qed.
  Lemma gp_st_n n fr c : writable fr0 I -> same_frame fr0 fr -> c = fr_locals fr0 \/ c = fr_params fr0 -> keeps I (st_n n fr c) goes.
  Proof. intros W H Hc. apply gp_il_get; [exact H|]. intros. now apply gp_st. Qed.
  Lemma gp_br n fr : same_frame fr0 fr -> keeps I (br n fr) goes.
  Proof. intro H. apply gp_il_signed; [exact H|]. intros. apply gp_next; auto. Qed.
  Lemma pure_is_null_or_zero v : @pure machine bool (is_null_or_zero v).
  Proof. destruct v; pur. Qed.
  Lemma gp_br_if n fr z : same_frame fr0 fr -> keeps I (br_if n fr z) goes.
  Proof.
    intro H. apply gp_il_signed; [exact H|]. intros x fr' H'. apply gp_seq; [apply kp_pop|intro v].
    apply gp_seq; [apply kp_pure, pure_is_null_or_zero|intro b]. apply gp_next. destruct (Bool.eqb b z); auto.
  Qed.
  Lemma gp_br_cmp n fr t : same_frame fr0 fr -> (forall a b, pure (t a b)) -> keeps I (br_cmp n fr t) goes.
  Proof.
    intros H Ht. apply gp_seq; [apply kp_pop|intro v]. apply gp_seq; [apply kp_pop|intro w].
    apply gp_il_signed; [exact H|]. intros x fr' H'.
    apply gp_seq; [apply kp_pure, Ht|intro b]. apply gp_next. destruct b; auto.
  Qed.
  Lemma gp_compare fr t : same_frame fr0 fr -> (forall a b, pure (t a b)) -> keeps I (compare fr t) goes.
  Proof.
    intros H Ht. apply gp_seq; [apply kp_pop|intro v]. apply gp_seq; [apply kp_pop|intro w].
    apply gp_seq; [apply kp_pure, Ht|intro b]. now apply gp_ldc.
  Qed.
  Lemma gp_op2 fr f : same_frame fr0 fr -> (forall a b, pure (f a b)) -> keeps I (op2 fr f) goes.
  Proof.
    intros H Ht. apply gp_seq; [apply kp_pop|intro v]. apply gp_seq; [apply kp_pop|intro w].
    apply gp_seq; [apply kp_pure, Ht|intro b]. now apply gp_ldc.
  Qed.
  Lemma gp_op1 fr f : same_frame fr0 fr -> (forall a, pure (f a)) -> keeps I (op1 fr f) goes.
  Proof.
    intros H Ht. apply gp_seq; [apply kp_pop|intro v].
    apply gp_seq; [apply kp_pure, Ht|intro b]. now apply gp_ldc.
  Qed.

  Lemma gp_method_call fr tok r : same_frame fr0 fr -> keeps I (method_call p fr tok r) goes.
  Proof.
    intro H. unfold method_call. apply gp_seq; [apply kp_vm, pure_resolve_method|intros [m|]; [|apply gp_fail]].
    cbn zeta. intros s Hs. pose proof (i_call _ _ _ Inv m r s Hs) as C. cbn zeta in C.
    unfold bind in *. destruct (stackalloc _ s) as [c s1|e s1|w|w|]; auto.
    destruct (pop_args _ _ s1) as [[] s2|e s2|w|w|]; auto.
    cbn in *. destruct C as [C1 C2]. repeat split; auto; apply H.
  Qed.
  Lemma gp_newobj fuel fr : same_frame fr0 fr -> keeps I (newobj fuel p fr) goes.
  Proof.
    intro H. apply gp_il_get; [exact H|]. intros tok fr' H'.
    apply gp_seq; [apply kp_vm, pure_resolve_method|intro o].
    apply gp_seq; [apply kp_pure, pure_unwrap|intro ctor].
    apply gp_seq; [apply kp_alloc|intro ob].
    apply gp_seq; [|intros []; now apply gp_method_call].
    intros s Hs. cbn zeta. destruct (Nat.leb _ _); [|exact Logic.I]. split; [now apply (i_operands _ _ _ Inv)|exact Logic.I].
  Qed.
  Lemma gp_stfld fr : same_frame fr0 fr -> keeps I (stfld p fr) goes.
  Proof.
    intro H. apply gp_il_get; [exact H|]. intros tok fr' H'.
    apply gp_seq; [apply kp_vm, pure_resolve_field|intro o].
    apply gp_seq; [apply kp_pure, pure_unwrap|intro f].
    apply gp_seq; [apply kp_pop|intro v]. apply gp_seq; [apply kp_pop|intros [| | |ob]]; try apply gp_fail.
    apply gp_seq; [apply kp_set_field|intros []]. now apply gp_next.
  Qed.
  Lemma gp_ldfld fr : same_frame fr0 fr -> keeps I (ldfld p fr) goes.
  Proof.
    intro H. apply gp_il_get; [exact H|]. intros tok fr' H'.
    apply gp_seq; [apply kp_vm, pure_resolve_field|intro o].
    apply gp_seq; [apply kp_pure, pure_unwrap|intro f].
    apply gp_seq; [apply kp_pop|intros [| | |ob]]; try apply gp_fail.
    apply gp_seq; [apply kp_pure, pure_get_field_value|intro v]. now apply gp_ldc.
  Qed.
  Lemma gp_newarr fuel fr : same_frame fr0 fr -> keeps I (newarr fuel p fr) goes.
  Proof.
    intro H. apply gp_il_get; [exact H|]. intros tok fr' H'.
    apply gp_seq; [apply kp_vm, pure_resolve_type|intro o].
    apply gp_seq; [apply kp_pure, pure_unwrap|intro t].
    apply gp_seq; [apply kp_pop_i32|intro n].
    apply gp_seq; [apply kp_alloc_array|intro ob]. now apply gp_ldc.
  Qed.
  Lemma gp_stelem_i4 fr : same_frame fr0 fr -> keeps I (stelem_i4 fr) goes.
  Proof.
    intro H. do 2 (apply gp_seq; [apply kp_pop_i32|intro]). apply gp_seq; [apply kp_pop_array|intro o].
    apply gp_seq; [apply kp_pure, pure_i32_slice|intro n].
    apply gp_seq; [|intros []; now apply gp_next]. unfold slice_set. destruct (_ <? _); [apply kp_store|apply kp_pure; pur].
  Qed.
  Lemma gp_ldelem_i4 fr : same_frame fr0 fr -> keeps I (ldelem_i4 fr) goes.
  Proof.
    intro H. apply gp_seq; [apply kp_pop_i32|intro]. apply gp_seq; [apply kp_pop_array|intro o].
    apply gp_seq; [apply kp_pure, pure_i32_slice|intro n].
    apply gp_seq; [apply kp_pure|intro bs; now apply gp_ldc].
    unfold slice_get. destruct (_ <? _); [apply pure_load|pur].
  Qed.
  Lemma gp_ldstr fr : same_frame fr0 fr -> keeps I (ldstr p fr) goes.
  Proof.
    intro H. apply gp_il_get; [exact H|]. intros tok fr' H'.
    apply gp_seq; [apply kp_vm, pure_get_string|intros [text|]; [|apply gp_fail]].
    apply gp_seq; [apply kp_alloc_string|intro o]. now apply gp_ldc.
  Qed.
  Lemma gp_return o : keeps I (ret (OReturn o)) goes.
  Proof. intros s Hs. cbn. auto. Qed.
  Lemma gp_ret fr : keeps I (ret_op fr) goes.
  Proof.
    apply gp_seq; [apply kp_vm, pure_get_type|intro o].
    apply gp_seq; [destruct o; [apply kp_vm, pure_type_eq|apply kp_pure; pur]|].
    intros [|]; [apply gp_return|]. apply gp_seq; [apply kp_try_pop|intro v; apply gp_return].
  Qed.

  Lemma pure_v_cmp a b : @pure machine _ (v_cmp a b).
  Proof. destruct a, b; cbn; try (pur; fail). destruct (ity_eqb _ _); pur. Qed.
  Lemma pure_v_eq a b : @pure machine _ (v_eq a b).
  Proof. destruct a, b; cbn; try (pur; fail). destruct (Nat.eqb _ _); pur. Qed.
  Lemma pure_arith t x : @pure machine _ (arith p t x).
  Proof. unfold arith. destruct (in_ity t x); [pur|]. destruct p; pur. Qed.
  Lemma pure_binary w f o a b : (forall t x y, pure (f t x y)) -> @pure machine _ (binary w f o a b).
  Proof. intro H. destruct a, b; cbn; try (pur; fail); [|destruct o; pur|destruct o; pur]. destruct (ity_eqb _ _); [apply H|pur]. Qed.
  Lemma pure_shift_amount t b : @pure machine _ (shift_amount p t b).
  Proof. unfold shift_amount. destruct (_ && _)%bool; [pur|]. destruct p; pur. Qed.

  Lemma keeps_exec_op fuel op fr : writable fr0 I -> same_frame fr0 fr -> keeps I (exec_op fuel p op fr) goes.
  Proof.
    intros W H.
    assert (HL : fr_locals fr = fr_locals fr0 \/ fr_locals fr = fr_params fr0) by (left; apply H).
    assert (HP : fr_params fr = fr_locals fr0 \/ fr_params fr = fr_params fr0) by (right; apply H).
    destruct op; unfold exec_op; cbv zeta; cbn match;
    lazymatch goal with
    | |- keeps _ (fail _) _ => apply gp_fail
    | |- keeps _ (next _) _ => apply gp_next; exact H
    | |- keeps _ (ret_op _) _ => apply gp_ret
    | |- keeps _ (ldc _ _) _ => apply gp_ldc; exact H
    | |- keeps _ (ld _ _ _) _ => apply gp_ld; assumption
    | |- keeps _ (st _ _ _) _ => apply gp_st; assumption
    | |- keeps _ (ld_n _ _ _) _ => apply gp_ld_n; assumption
    | |- keeps _ (st_n _ _ _) _ => apply gp_st_n; assumption
    | |- keeps _ (br _ _) _ => apply gp_br; assumption
    | |- keeps _ (br_if _ _ _) _ => apply gp_br_if; assumption
    | |- keeps _ (newobj _ _ _) _ => apply gp_newobj; assumption
    | |- keeps _ (stfld _ _) _ => apply gp_stfld; assumption
    | |- keeps _ (ldfld _ _) _ => apply gp_ldfld; assumption
    | |- keeps _ (newarr _ _ _) _ => apply gp_newarr; assumption
    | |- keeps _ (stelem_i4 _) _ => apply gp_stelem_i4; assumption
    | |- keeps _ (ldelem_i4 _) _ => apply gp_ldelem_i4; assumption
    | |- keeps _ (ldstr _ _) _ => apply gp_ldstr; assumption
    | |- keeps _ (bind (il_signed _ _) _) _ =>
        apply gp_il_signed; [exact H|]; intros; apply gp_ldc; assumption
    | |- keeps _ (bind (il_get _ _) (fun '(x, f) => ldc _ _)) _ =>
        apply gp_il_get; [exact H|]; intros; apply gp_ldc; assumption
    | |- keeps _ (bind (il_get _ _) _) _ =>
        apply gp_il_get; [exact H|]; intros; apply gp_method_call; assumption
    | |- keeps _ (br_cmp _ _ _) _ => apply gp_br_cmp; [exact H|intros a b]
    | |- keeps _ (compare _ _) _ => apply gp_compare; [exact H|intros a b]
    | |- keeps _ (op2 _ _) _ => apply gp_op2; [exact H|intros a b]
    | |- keeps _ (op1 _ _) _ => apply gp_op1; [exact H|intros a]
    | |- _ => idtac
    end;
    lazymatch goal with
    | |- pure (eq_test _ _) => apply pure_v_eq
    | |- pure (v_neg _ _) => idtac
    | |- pure (v_not _) => idtac
    | |- pure (v_ge _ _) => apply pure_bind; [apply pure_v_cmp|intro; apply pure_ret]
    | |- pure (v_gt _ _) => apply pure_bind; [apply pure_v_cmp|intro; apply pure_ret]
    | |- pure (v_le _ _) => apply pure_bind; [apply pure_v_cmp|intro; apply pure_ret]
    | |- pure (v_lt _ _) => apply pure_bind; [apply pure_v_cmp|intro; apply pure_ret]
    | |- _ => idtac
    end;
    lazymatch goal with
    | |- pure (v_neg _ _) => idtac
    | |- pure (v_not _) => idtac
    | |- pure _ => apply pure_binary; intros t x y
    | |- _ => idtac
    end;
    lazymatch goal with
    | |- pure (arith _ _ _) => apply pure_arith
    | |- pure (int_div _ _ _) => unfold int_div; destruct (_ =? _)%Z; [apply pure_panic|]; destruct (in_ity _ _); pur
    | |- pure (int_rem _ _ _) => unfold int_rem; destruct (_ =? _)%Z; [apply pure_panic|]; destruct (in_ity _ _); pur
    | |- pure (ret _) => apply pure_ret
    | |- pure (bind (shift_amount _ _ _) _) => apply pure_bind; [apply pure_shift_amount|intro; apply pure_ret]
    | |- _ => idtac
    end.
    - (* dup *)
      apply gp_seq; [apply kp_pure|intro v; now apply gp_ldc].
      intro s. unfold peek_top. destruct (x_operands s); auto.
    - (* pop *)
      apply gp_seq; [apply kp_pop|intro v; now apply gp_next].
    - (* neg *) destruct a; cbn; try (pur; fail). destruct (isigned t); [apply pure_arith|pur].
    - (* not *) destruct a; cbn; pur.
  Qed.

  (** Only two instructions lead to calls. *)
  Definition no_call (m : M machine outcome) : Prop :=
    forall s, match m s with Ok (OCall _ _ _ _) _ => False | _ => True end.
  Lemma no_call_bind {A} (m : M machine A) k : (forall a, no_call (k a)) -> no_call (bind m k).
  Proof. intros H s. unfold bind. destruct (m s); auto. apply H. Qed.
  Lemma no_call_next fr : no_call (next fr). Proof. intro s. exact Logic.I. Qed.
  Lemma no_call_fail e : no_call (fail e). Proof. intro s. exact Logic.I. Qed.
  Lemma no_call_return v : no_call (ret (OReturn v)). Proof. intro s. exact Logic.I. Qed.
  Lemma exec_op_calls fuel op fr s :
    match exec_op fuel p op fr s with Ok (OCall _ _ _ _) _ => op = Call \/ op = Newobj | _ => True end.
  Proof.
    assert (K : op = Call \/ op = Newobj \/ no_call (exec_op fuel p op fr)).
    { destruct op; auto; right; right; unfold exec_op; cbv zeta; cbn match;
      unfold ldc, ld_n, st_n, ld, st, br, br_if, br_cmp, compare, op2, op1, stfld, ldfld, newarr, stelem_i4,
        ldelem_i4, ldstr, ret_op;
      repeat first
        [ apply no_call_next | apply no_call_fail | apply no_call_return
        | apply no_call_bind; intro
        | match goal with |- no_call (match ?x with _ => _ end) => destruct x end ]. }
    destruct K as [K|[K|K]]; [destruct (exec_op _ _ _ _ _) as [[]| | | |]; auto..|].
    specialize (K s). destruct (exec_op _ _ _ _ _) as [[]| | | |]; auto. destruct K.
  Qed.

  Lemma get_opcode_frame fr s :
    match get_opcode fr s with
    | Ok (op, fr') s' => s' = s /\ same_frame fr fr'
    | Err _ _ => False
    | _ => True
    end.
  Proof.
    unfold get_opcode, code_at, bind, ret, panic.
    destruct (nth_error (fr_code fr) (N.to_nat (fr_ip fr))) as [b|]; [|exact Logic.I].
    destruct (_ <? _).
    - destruct (nth_error (fr_code fr) (N.to_nat (fr_ip fr + 1))) as [c|]; [|exact Logic.I].
      unfold unwrap. destruct (from_u16 _); cbn; auto.
    - unfold unwrap. destruct (from_u16 _); cbn; auto.
  Qed.

  Lemma keeps_step fuel fr : writable fr0 I -> same_frame fr0 fr -> keeps I (step fuel p fr) goes.
  Proof.
    intros W H s Hs. unfold step. unfold bind. pose proof (get_opcode_frame fr s) as G.
    destruct (get_opcode fr s) as [[op fr'] s1|e s1|w|w|]; auto; [|destruct G].
    destruct G as [-> F]. apply keeps_exec_op; [exact W| |exact Hs]. eapply same_frame_trans; eauto.
  Qed.

  (** The same for instructions that lead to a call, which do not write to variables. *)
  Lemma keeps_step_call fuel fr s m c r fr' s' : same_frame fr0 fr -> I s ->
    step fuel p fr s = Ok (OCall m c r fr') s' -> I s' /\ same_frame fr0 fr' /\ P m c r s'.
  Proof.
    intros H Hs. unfold step. unfold bind at 1. pose proof (get_opcode_frame fr s) as G.
    destruct (get_opcode fr s) as [[op fr1] s1|e s1|w|w|]; try discriminate.
    destruct G as [-> F]. assert (F1 : same_frame fr0 fr1) by (eapply same_frame_trans; eauto).
    pose proof (exec_op_calls fuel op fr1 s) as C. intro E. rewrite E in C.
    destruct C as [-> | ->]; unfold exec_op in E; cbv zeta in E; cbn match in E.
    - assert (K : keeps I (' (tok, fr2) <- il_get fr1 4 ;; method_call p fr2 tok None) goes).
      { apply gp_il_get; [exact F1|]. intros. now apply gp_method_call. }
      specialize (K s Hs). rewrite E in K. exact K.
    - pose proof (gp_newobj fuel fr1 F1 s Hs) as K. rewrite E in K. exact K.
  Qed.
End Instructions.

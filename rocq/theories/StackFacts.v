(** What single instructions do to the operand stack. *)
From Coq Require Import NArith ZArith Arith Lia String List Bool.
From Coq.Strings Require Import Byte.
From Verif Require Import Base BaseFacts Metadata Tables Runtime Value Opcodes Gc Interp SpecRuntime SpecExec SpecFrames SpecStack
  InterpFacts InterpInv FrameFacts TraceFacts VmFacts CallFacts PropsDecode PropsCompare.
Import ListNotations.
Open Scope N_scope.

(** ** Operations that leave the operands alone *)

Definition same_operands {A} (m : M machine A) : Prop :=
  forall s a s', m s = Ok a s' -> x_operands s' = x_operands s.
Lemma so_pure {A} (m : M machine A) : pure m -> same_operands m.
Proof. intros H s a s' E. specialize (H s). rewrite E in H. now subst. Qed.
Lemma so_bind {A B} (m : M machine A) (k : A -> M machine B) :
  same_operands m -> (forall a, same_operands (k a)) -> same_operands (bind m k).
Proof.
  intros Hm Hk s b s' E. unfold bind in E. destruct (m s) as [a s1|e s1|w|w|] eqn:D; try discriminate.
  rewrite (Hk _ _ _ _ E). eapply Hm; eauto.
Qed.
Lemma so_on_vm {A} (m : M vm A) : same_operands (on_vm m).
Proof. intros s a s' E. unfold on_vm in E. destruct (m (x_vm s)); try discriminate. injection E as <- <-. reflexivity. Qed.
Lemma so_store o d bs : same_operands (store o d bs).
Proof.
  intros s a s' E. unfold store in E. cbv zeta in E. destruct (negb _); [discriminate|].
  destruct (_ <=? _); [|discriminate]. injection E as <- <-. reflexivity.
Qed.
Lemma so_vec_reserve n : same_operands (vec_reserve n).
Proof.
  intros s a s' E. unfold vec_reserve in E. cbv zeta in E. destruct (_ <? _).
  - destruct (_ <? _); [discriminate|]. injection E as <- <-. reflexivity.
  - injection E as <- <-. reflexivity.
Qed.
Lemma so_state {A} (f : machine -> A) : same_operands (fun s => Ok (f s) s).
Proof. intros s a s' E. now injection E as <- <-. Qed.
Lemma so_set_heap (f : machine -> heap) : same_operands (fun s => Ok tt (set_heap s (f s))).
Proof. intros s a s' E. now injection E as <- <-. Qed.
Lemma so_make_room p n : same_operands (make_room p n).
Proof.
  apply so_bind.
  - apply so_bind; [apply so_state|intro h]. apply so_bind; [apply so_pure, pure_ovf|intro k].
    destruct (_ <? _); [apply so_vec_reserve|apply so_pure, pure_ret].
  - intros []. apply so_bind; [apply so_state|intro b]. apply so_bind; [apply so_pure, pure_ovf|intro k].
    apply so_bind; [|intros []; apply so_state].
    apply so_bind; [apply so_state|intro l]. destruct (_ <? _); [|apply so_set_heap].
    apply so_bind; [apply so_vec_reserve|intros []; apply so_set_heap].
Qed.
Lemma so_alloc f p t : same_operands (alloc f p t).
Proof.
  apply so_bind; [apply so_on_vm|intro n]. apply so_bind; [apply so_pure, pure_ovf|intro size].
  apply so_bind; [apply so_make_room|intro o]. apply so_bind; [apply so_on_vm|intro id].
  apply so_bind; [apply so_store|intros []]. apply so_pure, pure_ret.
Qed.
Lemma so_add_flag o f : same_operands (add_flag o f).
Proof. apply so_bind; [apply so_pure, pure_load|intro; apply so_store]. Qed.
Lemma so_alloc_array f p t n : same_operands (alloc_array f p t n).
Proof.
  apply so_bind; [apply so_on_vm|intro k]. do 2 (apply so_bind; [apply so_pure, pure_ovf|intro]).
  apply so_bind; [apply so_make_room|intro o]. apply so_bind; [apply so_add_flag|intros []].
  do 2 (apply so_bind; [apply so_on_vm|intro]). apply so_bind; [apply so_store|intros []].
  apply so_bind; [apply so_on_vm|intro]. do 2 (apply so_bind; [apply so_store|intros []]). apply so_pure, pure_ret.
Qed.
Lemma so_alloc_string p text : same_operands (alloc_string p text).
Proof.
  do 2 (apply so_bind; [apply so_pure, pure_ovf|intro]).
  apply so_bind; [apply so_make_room|intro o]. apply so_bind; [apply so_add_flag|intros []].
  do 2 (apply so_bind; [apply so_on_vm|intro]). do 3 (apply so_bind; [apply so_store|intros []]). apply so_pure, pure_ret.
Qed.
Lemma so_cell_set c i v : same_operands (cell_set c i v).
Proof. intros s [] s' E. apply cell_set_frames in E. apply E. Qed.
Lemma so_set_field o f v : same_operands (set_field o f v).
Proof.
  apply so_bind; [apply so_pure, pure_raw_object|intros []].
  destruct (held_bytes v) as [[h bs]|]; [apply so_store|apply so_pure, pure_panic].
Qed.
Lemma so_slice_set o h n i bs : same_operands (slice_set o h n i bs).
Proof. unfold slice_set. destruct (_ <? _); [apply so_store|apply so_pure, pure_panic]. Qed.

(** ** Numbers of operands popped and pushed *)

(** [m] replaces [n] operands by [n'] others and does not look below. *)
Definition effect {A} (n : nat) (m : M machine A) (n' : nat) : Prop :=
  forall s a s' l base, m s = Ok a s' -> x_operands s = l ++ base -> List.length l = n ->
    exists l', x_operands s' = l' ++ base /\ List.length l' = n'.
Lemma ef_same {A} (m : M machine A) n : same_operands m -> effect n m n.
Proof. intros H s a s' l base E O L. exists l. rewrite (H _ _ _ E). auto. Qed.
Lemma ef_bind {A B} n k n' (m : M machine A) (f : A -> M machine B) :
  effect n m k -> (forall a, effect k (f a) n') -> effect n (bind m f) n'.
Proof.
  intros Hm Hf s b s' l base E O L. unfold bind in E. destruct (m s) as [a s1|e s1|w|w|] eqn:D; try discriminate.
  destruct (Hm _ _ _ _ _ D O L) as (l1 & O1 & L1). eapply Hf; eauto.
Qed.
Lemma ef_push n v : effect n (push v) (S n).
Proof. intros s a s' l base E O L. injection E as <- <-. exists (v :: l). cbn. rewrite O, L. auto. Qed.
Lemma ef_pop n : effect (S n) pop n.
Proof.
  intros s a s' l base E O L. destruct l as [|v l]; [discriminate L|]. unfold pop, bind, try_pop in E. rewrite O in E. cbn in E.
  injection E as <- <-. exists l. injection L as L. auto.
Qed.
Lemma ef_fail {A} n n' e : effect n (@fail machine A e) n'. Proof. intros s a s' l base E. discriminate E. Qed.
Lemma ef_panic {A} n n' e : effect n (@panic machine A e) n'. Proof. intros s a s' l base E. discriminate E. Qed.
Lemma ef_peek n : effect n peek_top n.
Proof.
  apply ef_same. intros s a s' E. unfold peek_top in E. destruct (x_operands s) eqn:O; [discriminate|]. injection E as <- <-. now rewrite O.
Qed.
Lemma ef_pop_i32 n : effect (S n) pop_i32 n.
Proof. eapply ef_bind; [apply ef_pop|intro v]. apply ef_same, so_pure. destruct v as [[]| | |]; pur. Qed.
Lemma ef_pop_array n : effect (S n) pop_array n.
Proof.
  eapply ef_bind; [apply ef_pop|intro v]. apply ef_same, so_pure. destruct v; try (pur; fail).
  apply pure_bind; [apply pure_bind; [apply pure_flags|intro; pur]|intros [|]; pur].
Qed.
Lemma ef_next n fr : effect n (next fr) n.
Proof. apply ef_same, so_pure, pure_ret. Qed.

(** The operators. *)
Lemma pure_arithmetic p t x : @pure machine _ (arith p t x).
Proof. unfold arith. destruct (in_ity t x); [pur|]. destruct p; pur. Qed.
Lemma pure_amount p t b : @pure machine _ (shift_amount p t b).
Proof. unfold shift_amount. destruct (_ && _)%bool; [pur|]. destruct p; pur. Qed.
Lemma pure_int t x y : @pure machine _ (int_div t x y) /\ @pure machine _ (int_rem t x y).
Proof. split; unfold int_div, int_rem; (destruct (_ =? _)%Z; [apply pure_panic|]; destruct (in_ity _ _); pur). Qed.
Lemma pure_shifted p t y (f : Z -> value) : @pure machine _ (n <- shift_amount p t y ;; ret (f n)).
Proof. apply pure_bind; [apply pure_amount|intro; apply pure_ret]. Qed.
Lemma pure_v_neg p a : @pure machine _ (v_neg p a).
Proof. destruct a; cbn; try (pur; fail). destruct (isigned t); [apply pure_arithmetic|pur]. Qed.
Lemma pure_v_not a : @pure machine _ (v_not a).
Proof. destruct a; cbn; pur. Qed.
Lemma pure_ordered (f : option comparison -> bool) a b : @pure machine _ (c <- v_cmp a b ;; ret (f c)).
Proof. apply pure_bind; [apply pure_v_cmp|intro; apply pure_ret]. Qed.

Lemma ef_op2 n fr f : (forall a b, pure (f a b)) -> effect (S (S n)) (op2 fr f) (S n).
Proof.
  intro H. eapply ef_bind; [apply ef_pop|intro b]. eapply ef_bind; [apply ef_pop|intro a].
  eapply ef_bind; [apply ef_same, so_pure, H|intro v]. eapply ef_bind; [apply ef_push|intros []]. apply ef_next.
Qed.
Lemma ef_op1 n fr f : (forall a, pure (f a)) -> effect (S n) (op1 fr f) (S n).
Proof.
  intro H. eapply ef_bind; [apply ef_pop|intro a].
  eapply ef_bind; [apply ef_same, so_pure, H|intro v]. eapply ef_bind; [apply ef_push|intros []]. apply ef_next.
Qed.
Lemma ef_compare n fr t : (forall a b, pure (t a b)) -> effect (S (S n)) (compare fr t) (S n).
Proof.
  intro H. eapply ef_bind; [apply ef_pop|intro b]. eapply ef_bind; [apply ef_pop|intro a].
  eapply ef_bind; [apply ef_same, so_pure, H|intro v]. eapply ef_bind; [apply ef_push|intros []]. apply ef_next.
Qed.
Ltac operator :=
  intros; first [ apply pure_v_neg | apply pure_v_not | apply pure_v_eq | apply pure_ordered
                | apply pure_binary; intros; first [ apply pure_arithmetic | apply pure_int | apply pure_ret | apply pure_shifted ] ].
Lemma pure_il_signed fr n : pure (il_signed fr n).
Proof. apply pure_bind; [apply pure_il_get|intros []; pur]. Qed.

Ltac effects :=
  repeat (cbv beta iota zeta;
    lazymatch goal with
    | |- effect _ (next _) _ => apply ef_next
    | |- effect _ (fail _) _ => apply ef_fail
    | |- effect _ (panic _) _ => apply ef_panic
    | |- effect _ (push _) _ => apply ef_push
    | |- effect _ pop _ => apply ef_pop
    | |- effect _ peek_top _ => apply ef_peek
    | |- effect _ pop_i32 _ => apply ef_pop_i32
    | |- effect _ pop_array _ => apply ef_pop_array
    | |- effect _ (on_vm _) _ => apply ef_same, so_on_vm
    | |- effect _ (unwrap _) _ => apply ef_same, so_pure, pure_unwrap
    | |- effect _ (cell_get _ _) _ => apply ef_same, so_pure, pure_cell_get
    | |- effect _ (cell_set _ _ _) _ => apply ef_same, so_cell_set
    | |- effect _ (set_field _ _ _) _ => apply ef_same, so_set_field
    | |- effect _ (get_field_value _ _) _ => apply ef_same, so_pure, pure_get_field_value
    | |- effect _ (alloc_array _ _ _ _) _ => apply ef_same, so_alloc_array
    | |- effect _ (alloc_string _ _) _ => apply ef_same, so_alloc_string
    | |- effect _ (i32_slice _) _ => apply ef_same, so_pure, pure_i32_slice
    | |- effect _ (slice_set _ _ _ _ _) _ => apply ef_same, so_slice_set
    | |- effect _ (slice_get _ _ _ _) _ => apply ef_same, so_pure; unfold slice_get; destruct (_ <? _); [apply pure_load|pur]
    | |- effect _ (op2 _ _) _ => apply ef_op2; operator
    | |- effect _ (op1 _ _) _ => apply ef_op1; operator
    | |- effect _ (compare _ _) _ => apply ef_compare; operator
    | |- effect _ (il_signed _ _) _ => apply ef_same, so_pure, pure_il_signed
    | |- effect _ (il_get _ _) _ => apply ef_same, so_pure, pure_il_get
    | |- effect _ (bind _ _) _ => eapply ef_bind; [|intro]
    | |- effect _ (match ?x with _ => _ end) _ => destruct x
    end).

(** ** The instructions of [effects] *)

Definition is_next (o : outcome) : Prop := exists fr', o = ONext fr'.
Ltac to_next :=
  repeat (cbv beta iota zeta;
    lazymatch goal with
    | |- yields (next _) _ => apply yields_ret; eexists; reflexivity
    | |- yields (bind _ _) _ => apply yields_bind; intro
    | |- yields (match ?x with _ => _ end) _ => destruct x
    | |- yields (fail _) _ => apply yields_fail
    | |- yields (panic _) _ => apply yields_panic
    end).

Lemma effect_format op n pops pushes : In (op, n, pops, pushes) effects ->
  In (op, n) formats /\ op <> [xfe; x09] /\ op <> [xfe; x0b].
Proof.
  assert (A : forallb (fun q => existsb (fun q' => bytes_eqb (fst (fst (fst q))) (fst q') && (snd (fst (fst q)) =? snd q')) formats &&
                negb (bytes_eqb (fst (fst (fst q))) [xfe; x09]) && negb (bytes_eqb (fst (fst (fst q))) [xfe; x0b])) effects = true)
    by (vm_compute; reflexivity).
  rewrite forallb_forall in A. intro I. specialize (A _ I). cbn [fst snd] in A.
  apply andb_prop in A. destruct A as [A A3]. apply andb_prop in A. destruct A as [A1 A2].
  apply existsb_exists in A1. destruct A1 as ([op' n'] & I' & A1). apply andb_prop in A1. destruct A1 as [B1 B2].
  apply bytes_eqb_spec in B1. apply N.eqb_eq in B2. cbn [fst snd] in B1, B2. subst op' n'. split; [exact I'|].
  split; intro H; [apply bytes_eqb_spec in H; now rewrite H in A2|apply bytes_eqb_spec in H; now rewrite H in A3].
Qed.

Theorem step_effect f p fr s op n pops pushes operand o s' l base :
  In (op, n, pops, pushes) effects -> code_here fr (op ++ operand) -> len operand = n ->
  x_operands s = l ++ base -> List.length l = pops -> step f p fr s = Ok o s' ->
  exists fr' l', o = ONext fr' /\ frame_at fr fr' (fr_ip fr + len op + n) /\ x_operands s' = l' ++ base /\ List.length l' = pushes.
Proof.
  intros I C L O Ll E.
  assert (Ef : exists m, step f p fr s = m s /\ effect pops m pushes /\ yields m is_next).
  { revert I. unfold effects. cbn [map app In]. intro F. clear O Ll E.
    repeat (destruct F as [F|F]; [injection F as <- <- <- <-|]); [..|contradiction F].
    all: cbn [app] in C; (step_at2 C || step_at C).
    all: eexists; split; [reflexivity|split].
    all: unfold ldc, ld_n, st_n, ld, st, stfld, ldfld, newarr, stelem_i4, ldelem_i4, ldstr.
    all: lazymatch goal with |- effect _ _ _ => effects | |- _ => unfold op1, op2, compare; to_next end. }
  destruct Ef as (m & Em & Ef & N). rewrite E in Em. destruct (Ef _ _ _ _ _ (eq_sym Em) O Ll) as (l' & O' & L').
  destruct (N _ _ _ (eq_sym Em)) as [fr' ->].
  assert (G : goes_on fr (fr_ip fr + len op + n) (ONext fr')).
  { destruct (effect_format _ _ _ _ I) as (F & F1 & F2). exact (C48_size_partial f p fr s op n operand _ s' F F1 F2 C L E). }
  exists fr', l'. auto.
Qed.

(** ** Branches *)

Lemma step_jump f p fr s i n bs o s' : jump_code i n -> code_here fr (i :: bs) -> List.length bs = n ->
  (0 <= Z.of_N (fr_ip fr) + 1 + Z.of_nat n + signed_number bs < 2 ^ 64)%Z -> step f p fr s = Ok o s' ->
  exists fr' ip, o = ONext fr' /\ frame_at fr fr' ip /\
    Z.of_N ip = (Z.of_N (fr_ip fr) + 1 + Z.of_nat n + signed_number bs)%Z /\ x_operands s' = x_operands s.
Proof.
  intros J C L R E. destruct (C49_jump f p fr s i n bs J C L R) as (fr' & s1 & ip & E1 & F & Hip & O).
  rewrite E in E1. injection E1 as -> ->. exists fr', ip. split; [reflexivity|]. split; [exact F|]. split; [lia|]. apply O.
Qed.
Lemma step_conditional f p fr s i n bs o s' l base k :
  (exists rel, branch_code i n rel) /\ k = 2%nat \/ (exists zero, zero_branch_code i n zero) /\ k = 1%nat ->
  code_here fr (i :: bs) -> List.length bs = n ->
  (0 <= Z.of_N (fr_ip fr) + 1 + Z.of_nat n + signed_number bs < 2 ^ 64)%Z ->
  x_operands s = l ++ base -> List.length l = k -> step f p fr s = Ok o s' ->
  exists fr' ip, o = ONext fr' /\ frame_at fr fr' ip /\ x_operands s' = base /\
    (ip = fr_ip fr + 1 + N.of_nat n \/ Z.of_N ip = (Z.of_N (fr_ip fr) + 1 + Z.of_nat n + signed_number bs)%Z).
Proof.
  intros K C L R O Ll E.
  assert (Ef : exists m, step f p fr s = m s /\ effect k m 0 /\ yields m is_next).
  { destruct K as [[[rel K] ->]|[[zero K] ->]]; destruct K;
    (step_at C; eexists; split; [reflexivity|split]; unfold br_cmp, br_if;
     lazymatch goal with |- effect _ _ _ => effects | |- _ => to_next end);
    try (apply ef_same, so_pure; first [apply pure_is_null_or_zero|operator]). }
  destruct Ef as (m & Em & Ef & N). rewrite E in Em. destruct (Ef _ _ _ _ _ (eq_sym Em) O Ll) as (l' & O' & L').
  destruct (N _ _ _ (eq_sym Em)) as [fr' ->]. destruct l'; [|discriminate L'].
  destruct (C49_conditional f p fr s i n bs fr' s') as [F|(ip & F & H)]; auto;
    [destruct K as [[K _]|[K _]]; auto|..]; eauto 10.
Qed.

(** ** Calls and returns *)

Lemma token_parts t r : t < 256 -> r < 2 ^ 24 ->
  Blob.token_table (t * 2 ^ 24 + r) = t /\ Blob.token_index (t * 2 ^ 24 + r) = r.
Proof.
  intros Ht Hr. unfold Blob.token_table, Blob.token_index. split.
  - rewrite N.shiftr_land. change (N.shiftr 4278190080 24) with (N.ones 8). rewrite N.land_ones, N.shiftr_div_pow2.
    rewrite N.div_add_l by easy. rewrite (N.div_small r) by exact Hr. rewrite N.add_0_r. now apply N.mod_small.
  - change 16777215 with (N.ones 24). rewrite N.land_ones, N.add_comm, N.mod_add by easy. now apply N.mod_small.
Qed.
Lemma denotes_resolve p s a tok m : denotes s a tok m -> resolve_method p a tok s = Ok (Some m) s.
Proof.
  intros (ai & r & Ea & Hr & H). unfold resolve_method, bind, the_assembly. rewrite Ea.
  assert (G : forall A (l : list A) x, Blob.token_index tok = r + 1 -> nth_error l (N.to_nat r) = Some x ->
              get_row p l tok s = Ok (Some x) s).
  { intros A l x Hi Hx. unfold get_row. rewrite Hi. unfold u_sub.
    replace (1 <=? r + 1) with true by (symmetry; apply N.leb_le; lia).
    replace (r + 1 - 1) with r by lia. unfold ret. now rewrite Hx. }
  destruct H as [[-> H]|[-> H]].
  - destruct (token_parts 6 (r + 1)) as [T1 T2]; [easy|exact Hr|]. rewrite T1. change (6 =? Tables.table_id Tables.TMethodDef) with true. cbn match. eauto.
  - destruct (token_parts 10 (r + 1)) as [T1 T2]; [easy|exact Hr|]. rewrite T1.
    change (10 =? Tables.table_id Tables.TMethodDef) with false. change (10 =? Tables.table_id Tables.TMemberRef) with true. cbn match. eauto.
Qed.
Lemma denotes_grows s s' a tok m : grows s s' -> denotes s a tok m -> denotes s' a tok m.
Proof.
  intros G (ai & r & Ea & H). destruct (gr_arena _ _ G) as [l El]. exists ai, r. split; [|exact H].
  rewrite El, nth_error_app1; [exact Ea|]. apply nth_error_Some. congruence.
Qed.
Lemma types_grow s s' i ti : grows s s' -> nth_error (c_types s) i = Some ti -> nth_error (c_types s') i = Some ti.
Proof.
  intros G E. destruct (gr_types _ _ G) as [l El]. rewrite El, nth_error_app1; [exact E|]. apply nth_error_Some. congruence.
Qed.
Lemma results_grow s s' m n : grows s s' -> results s m n -> results s' m n.
Proof. intros G [ti E H|ti E H]; [apply (no_result s' m ti)|apply (one_result s' m ti)]; eauto using types_grow. Qed.
Lemma results_unique s m n n' : results s m n -> results s m n' -> n = n'.
Proof. intros [ti E H|ti E H] [tj E' H'|tj E' H']; congruence. Qed.

Lemma step_ret f p fr s o s' l base k : consistent p (x_vm s) -> code_here fr [x2a] -> results (x_vm s) (fr_method fr) k ->
  x_operands s = l ++ base -> List.length l = k -> step f p fr s = Ok o s' ->
  exists v, o = OReturn v /\ x_operands s' = base /\ k = List.length (then_push [] v).
Proof.
  intros W C R O L E. revert E. step_at C. unfold ret_op. unfold bind at 1, on_vm at 1, get_type. cbn [fr_method set_ip].
  replace (set_vm s (x_vm s)) with s by now destruct s.
  pose proof (map_ok _ _ W (bytes_of_string "System.Void")) as MO.
  destruct R as [ti Et Hn|ti Et Hn].
  - destruct (map_get bytes_eqb (bytes_of_string "System.Void") (c_type_map (x_vm s))) as [t|] eqn:Em.
    + destruct MO as [(tj & Ej & Nj) _]. unfold bind at 1, on_vm, type_eq, bind, the_type. rewrite Et, Ej, Hn, Nj.
      unfold ret at 1. rewrite bytes_eqb_refl. intro E. injection E as <- <-. exists None. cbn [x_operands set_vm].
      destruct l; [|discriminate L]. auto.
    + exfalso. apply (MO ti); [eapply nth_error_In; eauto|exact Hn].
  - assert (E0 : forall t tj, nth_error (c_types (x_vm s)) t = Some tj -> ti_full_name tj = bytes_of_string "System.Void" ->
                 on_vm (type_eq (mt_return (fr_method fr)) t) s = Ok false s).
    { intros t tj Ej Nj. unfold on_vm, type_eq, bind, the_type. rewrite Et, Ej, Nj. unfold ret.
      replace (set_vm s (x_vm s)) with s by now destruct s.
      destruct (bytes_eqb (ti_full_name ti) _) eqn:B; [|reflexivity]. apply bytes_eqb_spec in B. contradiction. }
    assert (Fin : (v <- try_pop ;; ret (OReturn v)) s = Ok o s' ->
                  exists v, o = OReturn v /\ x_operands s' = base /\ 1%nat = List.length (then_push [] v)).
    { destruct l as [|v [|? ?]]; try discriminate L.
      unfold bind, try_pop. rewrite O. cbn [app]. intro E. injection E as <- <-. exists (Some v). auto. }
    destruct (map_get bytes_eqb (bytes_of_string "System.Void") (c_type_map (x_vm s))) as [t|].
    + destruct MO as [(tj & Ej & Nj) _]. unfold bind at 1. rewrite (E0 t tj Ej Nj). exact Fin.
    + exact Fin.
Qed.

Lemma arity_arguments m : N.to_nat (arity m) = arguments m.
Proof. unfold arity, arguments. destruct (mt_static m); unfold len; lia. Qed.

(** call: the arguments, in the order in which they were pushed, become the parameters. *)
Lemma step_call f p fr s bs m args rest : code_here fr (x28 :: bs) -> List.length bs = 4%nat ->
  denotes (x_vm s) (fr_assembly fr) (Z.to_N (number bs)) m ->
  x_operands s = rev args ++ rest -> List.length args = arguments m ->
  exists fr' c s1, step f p fr s = Ok (OCall m c None fr') s1 /\ frame_at fr fr' (fr_ip fr + 5) /\
    (forall i v, variable s1 c i v <-> nth_error args (N.to_nat i) = Some v) /\
    x_operands s1 = rest /\ x_vm s1 = x_vm s /\ x_heap s1 = x_heap s /\ x_host s1 = x_host s.
Proof.
  intros C L D O La. rewrite number_le_dec, N2Z.id in D.
  pose proof (code_here_drop fr [x28] bs C) as C'. change (len [x28]) with 1 in C'.
  apply (code_here_prefix fr [x28] bs) in C. step_at C.
  rewrite (fetched _ _ bs _ s C') by (unfold len; rewrite L; reflexivity). cbv beta iota. cbn [fr_ip set_ip].
  destruct (method_call_run p (set_ip (set_ip fr (fr_ip fr + 1)) (fr_ip fr + 1 + 4)) (le_dec bs) None m args rest s)
    as (c & s1 & E & V & O1 & A1 & A2 & A3 & _);
    [apply denotes_resolve; exact D|exact O|rewrite <- arity_arguments in La; unfold len; lia|].
  rewrite E. eexists. exists c, s1. split; [reflexivity|]. split; [|auto 10].
  replace (fr_ip fr + 5) with (fr_ip fr + 1 + 4) by lia. unfold frame_at. cbn. auto 10.
Qed.

Lemma alloc_vm f p t s o s' : alloc f p t s = Ok o s' -> x_vm s' = x_vm s.
Proof.
  assert (H : silent (alloc f p t)).
  { apply silent_bind; [apply silent_pure, pure_on_vm, pure_type_size|intro n].
    apply silent_bind; [apply silent_pure, pure_ovf|intro size].
    apply silent_bind; [apply silent_make_room|intro ob].
    apply silent_bind; [apply silent_pure, pure_on_vm, pure_id_of|intro id].
    apply silent_bind; [apply silent_store|intros []]. apply silent_pure, pure_ret. }
  intro E. specialize (H s). now rewrite E in H.
Qed.
(** newobj: parameter 0 is the new object, the others are the arguments in order. *)
Lemma step_newobj f p fr s bs m args rest o s1 : code_here fr (x73 :: bs) -> List.length bs = 4%nat ->
  denotes (x_vm s) (fr_assembly fr) (Z.to_N (number bs)) m -> mt_static m = false ->
  x_operands s = rev args ++ rest -> List.length args = List.length (mt_params m) ->
  step f p fr s = Ok o s1 ->
  exists fr' c ob, o = OCall m c (Some (VObject ob)) fr' /\ frame_at fr fr' (fr_ip fr + 5) /\
    (forall i v, variable s1 c i v <-> nth_error (VObject ob :: args) (N.to_nat i) = Some v) /\
    x_operands s1 = rest /\ x_vm s1 = x_vm s /\
    exists s0, alloc f p (mt_declaring m) s = Ok ob s0 /\ x_heap s1 = x_heap s0.
Proof.
  intros C L D St O La E. rewrite number_le_dec, N2Z.id in D. revert E.
  pose proof (code_here_drop fr [x73] bs C) as C'. change (len [x73]) with 1 in C'.
  apply (code_here_prefix fr [x73] bs) in C. step_at C. unfold newobj.
  rewrite (fetched _ _ bs _ s C') by (unfold len; rewrite L; reflexivity). cbv beta iota. cbn [fr_ip set_ip fr_assembly].
  unfold bind at 1, on_vm. rewrite (denotes_resolve p _ _ _ _ D).
  replace (set_vm s (x_vm s)) with s by now destruct s.
  unfold bind at 1. cbn [unwrap]. unfold ret at 1. unfold bind at 1.
  destruct (alloc f p (mt_declaring m) s) as [ob s0|e s0|w|w|] eqn:A; try discriminate.
  pose proof (alloc_vm _ _ _ _ _ _ A) as Av. pose proof (so_alloc _ _ _ _ _ _ A) as Ao.
  unfold bind at 1. cbv zeta. rewrite Ao, O, <- La, <- rev_length.
  replace (Nat.leb (List.length (rev args)) (List.length (rev args ++ rest))) with true
    by (symmetry; apply Nat.leb_le; rewrite app_length; lia).
  rewrite firstn_app, firstn_all, Nat.sub_diag, firstn_O, app_nil_r, skipn_app, skipn_all, Nat.sub_diag, skipn_O. cbn [app].
  set (s2 := set_operands s0 _). intro E.
  destruct (method_call_run p (set_ip (set_ip fr (fr_ip fr + 1)) (fr_ip fr + 1 + 4)) (le_dec bs) (Some (VObject ob)) m (VObject ob :: args) rest s2)
    as (c & s3 & E3 & V & O1 & A1 & A2 & A3 & _).
  - cbn [fr_assembly set_ip]. unfold s2. cbn [x_vm set_operands]. rewrite Av. apply denotes_resolve. exact D.
  - unfold s2. cbn [x_operands set_operands rev]. now rewrite <- app_assoc.
  - unfold arity, len. rewrite St. cbn [List.length]. lia.
  - rewrite E3 in E. injection E as <- <-. eexists. exists c, ob. split; [reflexivity|]. split; [|split; [exact V|]].
    + replace (fr_ip fr + 5) with (fr_ip fr + 1 + 4) by lia. unfold frame_at. cbn. auto 10.
    + split; [exact O1|]. split; [rewrite A1; exact Av|]. exists s0. auto.
Qed.

(** What the instructions do to the bytes of the heap. *)
From Coq Require Import NArith ZArith Arith Lia String List Bool.
From Coq.Strings Require Import Byte.
From Verif Require Import Base BaseFacts ParseSpec Metadata Utf Runtime Value Opcodes Gc Interp SpecBytes SpecExec SpecFrames SpecStack SpecRuntime SpecTypes SpecHeap
  SpecHistory SpecSafety SpecStores RuntimeInv InterpFacts InterpInv FrameFacts VmFacts HeapFacts FieldFacts CallFacts TraceFacts TraceProps PropsHeap OffsetFacts SafetyFacts SafetyOps SafetyRuns.
Import ListNotations.
Open Scope N_scope.

(** ** Instructions that leave the heap alone *)

Definition still {A} (m : M machine A) : Prop := forall s a s', m s = Ok a s' -> x_heap s' = x_heap s.

Lemma still_bind {A B} (m : M machine A) (k : A -> M machine B) : still m -> (forall a, still (k a)) -> still (bind m k).
Proof. intros Hm Hk s b s' E. apply bind_inv_ok in E as (a & s1 & E1 & E). rewrite (Hk _ _ _ _ E). exact (Hm _ _ _ E1). Qed.
Lemma still_pure {A} (m : M machine A) : pure m -> still m.
Proof. intros H s a s' E. specialize (H s). rewrite E in H. now subst. Qed.
Lemma still_vm {A} (m : M vm A) : still (on_vm m).
Proof. intros s a s' E. unfold on_vm in E. destruct (m (x_vm s)); try discriminate. now injection E as _ <-. Qed.
Lemma still_push v : still (push v).
Proof. intros s a s' E. now injection E as _ <-. Qed.
Lemma still_try_pop : still try_pop.
Proof. intros s a s' E. unfold try_pop in E. destruct (x_operands s); now injection E as _ <-. Qed.
Lemma still_pop : still pop.
Proof. apply still_bind; [apply still_try_pop|intro]. apply still_pure, pure_unwrap. Qed.
Lemma still_pop_i32 : still pop_i32.
Proof. apply still_bind; [apply still_pop|intro v; apply still_pure]. destruct v as [[]| | |]; pur. Qed.
Lemma still_pop_array : still pop_array.
Proof.
  apply still_bind; [apply still_pop|intro v; apply still_pure]. destruct v; try (pur; fail).
  apply pure_bind; [apply pure_bind; [apply pure_flags|intro; pur]|intros [|]; pur].
Qed.
Lemma still_cell_set c i v : still (cell_set c i v).
Proof. intros s [] s' E. apply cell_set_frames in E. apply E. Qed.
Lemma still_stackalloc n : still (stackalloc n).
Proof. intros s a s' E. destruct (stackalloc_run n s) as (s1 & E1 & _ & _ & _ & _ & Eh & _). rewrite E1 in E. now injection E as _ <-. Qed.
Lemma still_pop_args c : forall n, still (pop_args c n).
Proof.
  induction n as [|n IH]; cbn [pop_args]; [apply still_pure, pure_ret|].
  apply still_bind; [apply still_pop|intro v]. apply still_bind; [apply still_cell_set|intros []; exact IH].
Qed.
Lemma still_ret {A} (a : A) : still (ret a). Proof. apply still_pure, pure_ret. Qed.
Lemma still_fail {A} e : still (@fail machine A e). Proof. apply still_pure, pure_fail. Qed.
Lemma pure_il_signed fr n : pure (il_signed fr n).
Proof. unfold il_signed. apply pure_bind; [apply pure_il_get|intros []; pur]. Qed.
Lemma still_ldc fr v : still (ldc fr v).
Proof. apply still_bind; [apply still_push|intros []; apply still_ret]. Qed.
Lemma still_ld fr c i : still (ld fr c i).
Proof. apply still_bind; [apply still_pure, pure_cell_get|intro v]. apply still_ldc. Qed.
Lemma still_st fr c i : still (st fr c i).
Proof. apply still_bind; [apply still_pop|intro v]. apply still_bind; [apply still_cell_set|intros []; apply still_ret]. Qed.
Lemma still_get {A} fr n (k : N * frame -> M machine A) : (forall x, still (k x)) -> still (bind (il_get fr n) k).
Proof. apply still_bind, still_pure, pure_il_get. Qed.
Lemma still_signed {A} fr n (k : Z * frame -> M machine A) : (forall x, still (k x)) -> still (bind (il_signed fr n) k).
Proof. apply still_bind, still_pure, pure_il_signed. Qed.
Lemma still_method_call p fr tok r : still (method_call p fr tok r).
Proof.
  unfold method_call. apply still_bind; [apply still_vm|intros [m|]; [|apply still_fail]]. cbv zeta.
  apply still_bind; [apply still_stackalloc|intro c]. apply still_bind; [apply still_pop_args|intros []; apply still_ret].
Qed.

Lemma pure_arith' p t x : @pure machine _ (arith p t x).
Proof. unfold arith. destruct (in_ity t x); [pur|]. destruct p; pur. Qed.
Lemma pure_shift_amount' p t b : @pure machine _ (shift_amount p t b).
Proof. unfold shift_amount. destruct (_ && _)%bool; [pur|]. destruct p; pur. Qed.

(** The instructions that do not. *)
Definition on_heap (op : opcode) : Prop := In op [Newobj; Stfld; Newarr; Stelem_I4; Ldstr].

Lemma still_exec_op fuel p op fr : ~ on_heap op -> still (exec_op fuel p op fr).
Proof.
  intro H. destruct op; try (exfalso; apply H; cbn [on_heap In]; tauto); clear H; unfold exec_op; cbv zeta; cbn match;
  lazymatch goal with
  | |- still (fail _) => apply still_fail
  | |- still (next _) => apply still_ret
  | |- still (ret_op _) => idtac
  | |- still (ldc _ _) => apply still_ldc
  | |- still (ld _ _ _) => apply still_ld
  | |- still (st _ _ _) => apply still_st
  | |- still (ld_n _ _ _) => apply still_get; intros []; apply still_ld
  | |- still (st_n _ _ _) => apply still_get; intros []; apply still_st
  | |- still (br _ _) => apply still_signed; intros []; apply still_ret
  | |- still (br_if _ _ _) => apply still_signed; intros []; apply still_bind; [apply still_pop|intro v];
        apply still_bind; [apply still_pure, pure_is_null_or_zero|intro; apply still_ret]
  | |- still (bind (il_signed _ _) _) => apply still_signed; intros []; apply still_ldc
  | |- still (bind (il_get _ _) (fun '(x, f) => ldc _ _)) => apply still_get; intros []; apply still_ldc
  | |- still (bind (il_get _ _) _) => apply still_get; intros []; apply still_method_call
  | |- still (br_cmp _ _ _) => apply still_bind; [apply still_pop|intro a]; apply still_bind; [apply still_pop|intro b];
        apply still_signed; intros [d fr']; apply still_bind; [apply still_pure|intro; apply still_ret]
  | |- still (compare _ _) => apply still_bind; [apply still_pop|intro a]; apply still_bind; [apply still_pop|intro b];
        apply still_bind; [apply still_pure|intro; apply still_ldc]
  | |- still (op2 _ _) => apply still_bind; [apply still_pop|intro a]; apply still_bind; [apply still_pop|intro b];
        apply still_bind; [apply still_pure|intro; apply still_ldc]
  | |- still (op1 _ _) => apply still_bind; [apply still_pop|intro a];
        apply still_bind; [apply still_pure|intro; apply still_ldc]
  | |- _ => idtac
  end;
  lazymatch goal with
  | |- pure (eq_test _ _) => apply pure_v_eq
  | |- pure (v_neg _ _) => idtac
  | |- pure (v_not _) => idtac
  | |- pure (v_ge _ _) => apply pure_bind; [apply pure_v_cmp|intro; apply pure_ret]
  | |- pure (v_gt _ _) => apply pure_bind; [apply pure_v_cmp|intro; apply pure_ret]
  | |- pure (v_le _ _) => apply pure_bind; [apply pure_v_cmp|intro; apply pure_ret]
  | |- pure (v_lt _ _) => apply pure_bind; [apply pure_v_cmp|intro; apply pure_ret]
  | |- _ => idtac
  end;
  lazymatch goal with
  | |- pure (v_neg _ _) => idtac
  | |- pure (v_not _) => idtac
  | |- pure _ => apply pure_binary; intros t x y
  | |- _ => idtac
  end;
  lazymatch goal with
  | |- pure (arith _ _ _) => apply pure_arith'
  | |- pure (int_div _ _ _) => unfold int_div; destruct (_ =? _)%Z; [apply pure_panic|]; destruct (in_ity _ _); pur
  | |- pure (int_rem _ _ _) => unfold int_rem; destruct (_ =? _)%Z; [apply pure_panic|]; destruct (in_ity _ _); pur
  | |- pure (ret _) => apply pure_ret
  | |- pure (bind (shift_amount _ _ _) _) => apply pure_bind; [apply pure_shift_amount'|intro; apply pure_ret]
  | |- _ => idtac
  end.
  - (* dup *)
    apply still_bind; [apply still_pure|intro v; apply still_ldc].
    intro s. unfold peek_top. destruct (x_operands s); auto.
  - (* pop *)
    apply still_bind; [apply still_pop|intro v; apply still_ret].
  - (* ret *)
    apply still_bind; [apply still_vm|intro o].
    apply still_bind; [destruct o; [apply still_vm|apply still_ret]|].
    intros [|]; [apply still_ret|]. apply still_bind; [apply still_try_pop|intro v; apply still_ret].
  - (* neg *) destruct a; cbn; try (pur; fail). destruct (isigned t); [apply pure_arith'|pur].
  - (* not *) destruct a; cbn; pur.
  - (* ldfld *)
    apply still_get; intros [tok fr']. apply still_bind; [apply still_vm|intro o].
    apply still_bind; [apply still_pure, pure_unwrap|intro f].
    apply still_bind; [apply still_pop|intros [| | |ob]]; try apply still_fail.
    apply still_bind; [apply still_pure, pure_get_field_value|intro v]. apply still_ldc.
  - (* ldelem *)
    apply still_bind; [apply still_pop_i32|intro]. apply still_bind; [apply still_pop_array|intro o].
    apply still_bind; [apply still_pure, pure_i32_slice|intro n].
    apply still_bind; [apply still_pure|intro bs; apply still_ldc].
    unfold slice_get. destruct (_ <? _); [apply pure_load|pur].
Qed.

(** ** Allocation *)

(** The heap has what it had, and possibly more behind it. *)
Definition extends (s s' : machine) : Prop := exists more, memory s' = memory s ++ more.
Lemma extends_same s s' : x_heap s' = x_heap s -> extends s s'.
Proof. intro E. exists []. unfold memory. now rewrite E, app_nil_r. Qed.
Lemma extends_trans a b c : extends a b -> extends b c -> extends a c.
Proof. intros [x E] [y F]. exists (x ++ y). now rewrite F, E, app_assoc. Qed.

Lemma store_inv o d bs s s' : store o d bs s = Ok tt s' ->
  o_off o + d + len bs <= len (memory s) /\ o_gen o = h_gen (x_heap s) /\
  s' = set_heap s (mkHeap (h_gen (x_heap s)) (h_cap (x_heap s)) (splice (o_off o + d) bs (memory s))).
Proof.
  unfold store, memory. cbv zeta. destruct (Nat.eqb_spec (o_gen o) (h_gen (x_heap s))) as [G|]; cbn [negb]; [|discriminate].
  destruct (N.leb_spec (o_off o + d + len bs) (len (h_mem (x_heap s)))) as [L|]; [|discriminate]. intro E. injection E as <-. auto.
Qed.
Lemma splice_behind a bs (m more : list byte) : len m <= a -> exists more', splice a bs (m ++ more) = m ++ more'.
Proof.
  intro L. unfold splice. rewrite firstn_app, firstn_all2 by (unfold len in L; lia). rewrite <- app_assoc. eauto.
Qed.
Lemma splice_at (a : N) bs (m : list byte) i : a + len bs <= len m ->
  N.of_nat i < a \/ a + len bs <= N.of_nat i -> nth_error (splice a bs m) i = nth_error m i.
Proof.
  intros L [H|H]; unfold splice.
  - rewrite nth_error_app1 by (rewrite firstn_length; unfold len in *; lia).
    rewrite <- (firstn_skipn (N.to_nat a) m) at 2. rewrite nth_error_app1; [reflexivity|]. rewrite firstn_length. unfold len in *. lia.
  - rewrite app_assoc, nth_error_app2 by (rewrite app_length, firstn_length; unfold len in *; lia).
    transitivity (nth_error (firstn (N.to_nat (a + len bs)) m ++ skipn (N.to_nat (a + len bs)) m) i); [|now rewrite firstn_skipn].
    rewrite (nth_error_app2 (firstn _ _)) by (rewrite firstn_length; unfold len in *; lia). f_equal.
    rewrite app_length, !firstn_length. unfold len in *. lia.
Qed.
Lemma splice_len (a : N) bs (m : list byte) : a + len bs <= len m -> len (splice a bs m) = len m.
Proof. intro L. unfold splice. unfold len in *. rewrite !app_length, firstn_length, skipn_length. lia. Qed.

(** What comes from the room for something new: it is behind everything else, unless the size has wrapped;
    then there is no room at all. *)
Lemma make_room_any p size s o s' : make_room p size s = Ok o s' ->
  o_off o = len (memory s) /\ (extends s s' \/ len (memory s') <= len (memory s)).
Proof.
  intro E. unfold make_room, ensure_size in E.
  apply bind_inv_ok in E as ([] & s1 & E1 & E).
  assert (M1 : memory s1 = memory s).
  { apply bind_inv_ok in E1 as (h & s0 & E0 & E1). injection E0 as <- <-. apply bind_inv_ok in E1 as (a & s0 & E0 & E1).
    assert (s0 = s) as -> by (destruct (u_add p 64 _ size); [injection E0 as _ <-; reflexivity|discriminate]).
    destruct (_ <? a); [|injection E1 as <-; reflexivity].
    apply vec_reserve_run in E1 as (Q & _). rewrite Q. reflexivity. }
  apply bind_inv_ok in E as (b & s0 & E0 & E). injection E0 as <- <-. change (h_mem (x_heap s1)) with (memory s1) in E.
  apply bind_inv_ok in E as (a & s0 & E0 & E).
  assert (s0 = s1) as -> by (destruct (u_add p 64 _ size); [injection E0 as _ <-; reflexivity|discriminate]). clear E0.
  apply bind_inv_ok in E as ([] & s2 & E2 & E). injection E as <- <-. cbn [o_off]. split; [now rewrite M1|].
  unfold vec_resize in E2. apply bind_inv_ok in E2 as (l & s0 & E0 & E). injection E0 as <- <-.
  change (h_mem (x_heap s1)) with (memory s1) in E. destruct (N.ltb_spec (len (memory s1)) a) as [X|X].
  - left. apply bind_inv_ok in E as ([] & s3 & E3 & E). apply vec_reserve_run in E3 as (Q3 & _). injection E as <-.
    rewrite Q3. unfold memory at 1. cbn [x_heap set_heap h_mem]. rewrite M1. eexists. reflexivity.
  - right. injection E as <-. unfold memory at 1. cbn [x_heap set_heap h_mem]. rewrite <- M1. unfold memory, len. rewrite firstn_length. lia.
Qed.

(** The state in which an object is being set up that lies behind what was there in [s0]. *)
Definition behind (s0 : machine) (o : obj) (s : machine) : Prop := o_off o = len (memory s0) /\ (extends s0 s \/ len (memory s) <= len (memory s0)).
Definition grown (s0 : machine) (o : obj) (s : machine) : Prop := o_off o = len (memory s0) /\ extends s0 s.

Lemma behind_store s0 o s d bs s' : behind s0 o s -> store o d bs s = Ok tt s' -> 0 < len bs -> grown s0 o s'.
Proof.
  intros [O [[more X]|X]] E L; apply store_inv in E as (B & G & ->); [|lia]. split; [exact O|].
  unfold extends, memory at 1. cbn [x_heap set_heap h_mem]. rewrite X. apply splice_behind. lia.
Qed.
Lemma grown_behind s0 o s : grown s0 o s -> behind s0 o s.
Proof. intros [O X]. split; auto. Qed.
Lemma grown_store s0 o s d bs s' : grown s0 o s -> store o d bs s = Ok tt s' -> grown s0 o s'.
Proof.
  intros [O [more X]] E. apply store_inv in E as (B & G & ->). split; [exact O|].
  unfold extends, memory at 1. cbn [x_heap set_heap h_mem]. rewrite X. apply splice_behind. lia.
Qed.
Lemma grown_still {A} s0 o s (m : M machine A) a s' : still m -> grown s0 o s -> m s = Ok a s' -> grown s0 o s'.
Proof. intros St [O X] E. split; [exact O|]. apply St in E. eapply extends_trans; [exact X|now apply extends_same]. Qed.
Lemma behind_still {A} s0 o s (m : M machine A) a s' : still m -> behind s0 o s -> m s = Ok a s' -> behind s0 o s'.
Proof. intros St [O X] E. split; [exact O|]. apply St in E. unfold extends, memory in *. now rewrite E. Qed.
Lemma behind_flag s0 o s f s' : behind s0 o s -> add_flag o f s = Ok tt s' -> grown s0 o s'.
Proof.
  intros H E. unfold add_flag in E. apply bind_inv_ok in E as (b & s1 & E1 & E).
  apply load_inv in E1 as (-> & _). eapply behind_store; [exact H|exact E|]. unfold len. rewrite le_enc_length. lia.
Qed.
Lemma make_room_behind p size s s1 o s' : x_heap s1 = x_heap s -> make_room p size s1 = Ok o s' -> behind s o s'.
Proof. intros Eh E. apply make_room_any in E. unfold behind, extends, memory in *. now rewrite Eh in E. Qed.

Lemma len_enc n x : len (le_enc n x) = N.of_nat n.
Proof. unfold len. now rewrite le_enc_length. Qed.

Lemma alloc_extends fuel p t s o s' : alloc fuel p t s = Ok o s' -> extends s s'.
Proof.
  intro E. unfold alloc in E. apply bind_inv_ok in E as (n & s1 & E1 & E). apply still_vm in E1.
  apply bind_inv_ok in E as (size & s2 & E2 & E). apply (still_pure _ (pure_ovf _)) in E2.
  apply bind_inv_ok in E as (ob & s3 & E3 & E). apply (make_room_behind _ _ s) in E3; [|congruence].
  apply bind_inv_ok in E as (id & s4 & E4 & E). apply (behind_still _ _ _ _ _ _ (still_vm _) E3) in E4.
  apply bind_inv_ok in E as ([] & s5 & E5 & E). injection E as <- <-.
  eapply behind_store in E5; [apply E5|exact E4|]. rewrite len_enc. lia.
Qed.
Lemma alloc_array_extends fuel p t n s o s' : alloc_array fuel p t n s = Ok o s' -> extends s s'.
Proof.
  intro E. unfold alloc_array in E. apply bind_inv_ok in E as (k & s1 & E1 & E). apply still_vm in E1.
  apply bind_inv_ok in E as (k2 & s2 & E2 & E). apply (still_pure _ (pure_ovf _)) in E2.
  apply bind_inv_ok in E as (size & s3 & E3 & E). apply (still_pure _ (pure_ovf _)) in E3.
  apply bind_inv_ok in E as (ob & s4 & E4 & E). apply (make_room_behind _ _ s) in E4; [|congruence].
  apply bind_inv_ok in E as ([] & s5 & E5 & E). apply (behind_flag _ _ _ _ _ E4) in E5.
  apply bind_inv_ok in E as (u & s6 & E6 & E). apply (grown_still _ _ _ _ _ _ (still_vm _) E5) in E6.
  apply bind_inv_ok in E as (id & s7 & E7 & E). apply (grown_still _ _ _ _ _ _ (still_vm _) E6) in E7.
  apply bind_inv_ok in E as ([] & s8 & E8 & E). apply (grown_store _ _ _ _ _ _ E7) in E8.
  apply bind_inv_ok in E as (id' & s9 & E9 & E). apply (grown_still _ _ _ _ _ _ (still_vm _) E8) in E9.
  apply bind_inv_ok in E as ([] & s10 & E10 & E). apply (grown_store _ _ _ _ _ _ E9) in E10.
  apply bind_inv_ok in E as ([] & s11 & E11 & E). apply (grown_store _ _ _ _ _ _ E10) in E11.
  injection E as <- <-. apply E11.
Qed.
Lemma alloc_string_extends p text s o s' : alloc_string p text s = Ok o s' -> extends s s'.
Proof.
  intro E. unfold alloc_string in E.
  apply bind_inv_ok in E as (k2 & s2 & E2 & E). apply (still_pure _ (pure_ovf _)) in E2.
  apply bind_inv_ok in E as (size & s3 & E3 & E). apply (still_pure _ (pure_ovf _)) in E3.
  apply bind_inv_ok in E as (ob & s4 & E4 & E). apply (make_room_behind _ _ s) in E4; [|congruence].
  apply bind_inv_ok in E as ([] & s5 & E5 & E). apply (behind_flag _ _ _ _ _ E4) in E5.
  apply bind_inv_ok in E as (u & s6 & E6 & E). apply (grown_still _ _ _ _ _ _ (still_vm _) E5) in E6.
  apply bind_inv_ok in E as (id & s7 & E7 & E). apply (grown_still _ _ _ _ _ _ (still_vm _) E6) in E7.
  apply bind_inv_ok in E as ([] & s8 & E8 & E). apply (grown_store _ _ _ _ _ _ E7) in E8.
  apply bind_inv_ok in E as ([] & s10 & E10 & E). apply (grown_store _ _ _ _ _ _ E8) in E10.
  apply bind_inv_ok in E as ([] & s11 & E11 & E). apply (grown_store _ _ _ _ _ _ E10) in E11.
  injection E as <- <-. apply E11.
Qed.

(** ** One instruction *)

(** The checks that come before a store: for a field, the flags; for an element, the flags, the type of the
    elements and their number. *)
Definition checked (fr : frame) (s : machine) (o : obj) (d k : N) : Prop :=
  exists s0, x_heap s0 = x_heap s /\ x_vm s0 = x_vm s /\
    (instruction fr [x7d] /\ raw_object o s0 = Ok tt s0 \/
     instruction fr [x9e] /\ as_array o s0 = Ok true s0 /\ exists n, i32_slice o s0 = Ok n s0 /\ d + k <= 17 + 4 * n).

(** Of the bytes that were there, at most those that the instruction stores to have changed. *)
Definition changes (fr : frame) (s s' : machine) : Prop :=
  extends s s' \/
  exists o d k, stores fr s o d k /\ o_off o + d + k <= len (memory s) /\ len (memory s') = len (memory s) /\ checked fr s o d k /\
    forall i, N.of_nat i < o_off o + d \/ o_off o + d + k <= N.of_nat i -> nth_error (memory s') i = nth_error (memory s) i.

Lemma store_changes o d bs s s' : store o d bs s = Ok tt s' ->
  o_off o + d + len bs <= len (memory s) /\ len (memory s') = len (memory s) /\
  forall i, N.of_nat i < o_off o + d \/ o_off o + d + len bs <= N.of_nat i -> nth_error (memory s') i = nth_error (memory s) i.
Proof.
  intro E. apply store_inv in E as (B & _ & ->). split; [exact B|]. unfold memory at 1 3. cbn [x_heap set_heap h_mem].
  split; [now apply splice_len|]. intros i. now apply splice_at.
Qed.

Lemma token_got fr b s x fr' s' : instruction fr [b] -> il_get (set_ip fr (fr_ip fr + 1)) 4 s = Ok (x, fr') s' ->
  s' = s /\ fr_assembly fr' = fr_assembly fr /\ exists tok, instruction fr (b :: tok) /\ List.length tok = 4%nat /\ x = Z.to_N (number tok).
Proof.
  intros I E. assert (W : whole (set_ip fr (fr_ip fr + 1)) (N.of_nat 4)).
  { unfold whole. unfold il_get in E. cbn [fr_ip set_ip fr_code] in *. change (N.of_nat 4) with 4.
    destruct (N.leb_spec (fr_ip fr + 1 + 4) (len (fr_code fr))); [assumption|discriminate]. }
  destruct (token_here fr b 4 s I W) as (bs & Ib & Lb & Eg). change (N.of_nat 4) with 4 in Eg. rewrite Eg in E.
  injection E as <- <- <-. split; [reflexivity|]. split; [reflexivity|]. eauto.
Qed.
Lemma pop_got s v s' : pop s = Ok v s' -> exists l, x_operands s = v :: l /\ s' = set_operands s l.
Proof.
  unfold pop, bind, try_pop. destruct (x_operands s) as [|w l]; [discriminate|]. cbn. intro E. injection E as <- <-. eauto.
Qed.
Lemma pop_i32_got s x s' : pop_i32 s = Ok x s' -> exists l, x_operands s = VInt I32 x :: l /\ s' = set_operands s l.
Proof.
  intro E. unfold pop_i32 in E. apply bind_inv_ok in E as (v & s1 & E1 & E). apply pop_got in E1 as (l & El & ->).
  destruct v as [[]| | |]; try discriminate. injection E as <- <-. eauto.
Qed.
Lemma pop_array_got s o s' : pop_array s = Ok o s' ->
  exists l, x_operands s = VObject o :: l /\ s' = set_operands s l /\ as_array o s' = Ok true s'.
Proof.
  intro E. unfold pop_array in E. apply bind_inv_ok in E as (v & s1 & E1 & E). apply pop_got in E1 as (l & El & ->).
  destruct v as [| | |ob]; try discriminate. unfold as_array in E. apply bind_inv_ok in E as (b & s2 & E2 & E).
  assert (s2 = set_operands s l) as ->.
  { pose proof (pure_bind _ _ (pure_flags ob) (fun f => pure_ret (has f Gc.is_array)) (set_operands s l)) as P. rewrite E2 in P. exact P. }
  destruct b; [|discriminate]. injection E as <- <-. eauto.
Qed.

Lemma step_changes f p fr s o s' : vectors (x_vm s) -> step f p fr s = Ok o s' -> changes fr s s'.
Proof.
  intros V E. unfold step in E. apply bind_inv_ok in E as ([op fr1] & s1 & E1 & E).
  pose proof (get_opcode_run fr s) as G. rewrite E1 in G. destruct G as (-> & I & ->).
  assert (D : on_heap op \/ ~ on_heap op).
  { clear. unfold on_heap. destruct op; try (left; cbn [In]; tauto); right; cbn [In]; intuition discriminate. }
  destruct D as [D|D]; [|left; apply extends_same; exact (still_exec_op f p op _ D _ _ _ E)].
  cbn [on_heap In] in D. destruct D as [<-|[<-|[<-|[<-|[<-|[]]]]]]; cbn [exec_op] in E.
  - (* newobj *)
    left. unfold newobj in E. apply bind_inv_ok in E as ([tok fr2] & s2 & E2 & E). apply (still_pure _ (pure_il_get _ _)) in E2.
    apply bind_inv_ok in E as (m & s3 & E3 & E). apply still_vm in E3.
    apply bind_inv_ok in E as (c & s4 & E4 & E). apply (still_pure _ (pure_unwrap _)) in E4.
    apply bind_inv_ok in E as (ob & s5 & E5 & E). apply alloc_extends in E5.
    apply bind_inv_ok in E as ([] & s6 & E6 & E). apply still_method_call in E.
    assert (H6 : x_heap s6 = x_heap s5) by (cbv zeta in E6; destruct (Nat.leb _ _); [injection E6 as <-; reflexivity|discriminate]).
    unfold extends, memory in *. rewrite E, H6. rewrite E4, E3, E2 in E5. exact E5.
  - (* stfld *)
    right. unfold stfld in E. apply bind_inv_ok in E as ([x fr2] & s2 & E2 & E). apply (token_got fr x7d) in E2 as (-> & Ea & tok & It & Lt & ->); [|exact I].
    apply bind_inv_ok in E as (m & s3 & E3 & E).
    unfold on_vm in E3. pose proof (pure_resolve_field p (fr_assembly fr2) (Z.to_N (number tok)) (x_vm s)) as Pu.
    destruct (resolve_field p (fr_assembly fr2) (Z.to_N (number tok)) (x_vm s)) as [r v|e v|w|w|] eqn:Er; try discriminate. subst v.
    injection E3 as -> <-. apply bind_inv_ok in E as (fi & s4 & E4 & E). destruct m as [fj|]; [|discriminate]. injection E4 as -> <-.
    apply resolve_field_inv in Er; [|exact V|now apply number_bound]. rewrite Ea in Er.
    apply bind_inv_ok in E as (v & s5 & E5 & E). apply pop_got in E5 as (l1 & El1 & ->).
    apply bind_inv_ok in E as (w & s6 & E6 & E). apply pop_got in E6 as (l2 & El2 & ->). cbn [x_operands set_operands set_vm] in El1, El2. subst l1.
    destruct w as [| | |ob]; try discriminate. apply bind_inv_ok in E as ([] & s7 & E7 & E). injection E as _ <-.
    unfold set_field in E7. apply bind_inv_ok in E7 as ([] & s8 & E8 & E7).
    pose proof (pure_raw_object ob (set_operands (set_operands (set_vm s (x_vm s)) (VObject ob :: l2)) l2)) as Q. rewrite E8 in Q. subst s8.
    destruct (held_bytes v) as [[h vb]|] eqn:Hb; [|discriminate]. apply held_bytes_width in Hb.
    apply store_changes in E7 as (B & L & C). unfold object_header in *.
    exists ob, (5 + f_offset fi), (len vb). split; [eapply stores_field; eauto|].
    unfold memory in *. cbn [x_heap set_operands set_vm] in B, L, C. split; [exact B|]. split; [exact L|]. split; [|exact C].
    exists (set_operands (set_operands (set_vm s (x_vm s)) (VObject ob :: l2)) l2).
    split; [reflexivity|]. split; [reflexivity|]. left. split; [exact I|exact E8].
  - (* newarr *)
    left. unfold newarr in E. apply bind_inv_ok in E as ([tok fr2] & s2 & E2 & E). apply (still_pure _ (pure_il_get _ _)) in E2.
    apply bind_inv_ok in E as (m & s3 & E3 & E). apply still_vm in E3.
    apply bind_inv_ok in E as (c & s4 & E4 & E). apply (still_pure _ (pure_unwrap _)) in E4.
    apply bind_inv_ok in E as (n & s5 & E5 & E). apply still_pop_i32 in E5.
    apply bind_inv_ok in E as (ob & s6 & E6 & E). apply alloc_array_extends in E6. apply still_ldc in E.
    unfold extends, memory in *. rewrite E. rewrite E5, E4, E3, E2 in E6. exact E6.
  - (* stelem.i4 *)
    right. unfold stelem_i4 in E. apply bind_inv_ok in E as (x & s2 & E2 & E). apply pop_i32_got in E2 as (l1 & El1 & ->).
    apply bind_inv_ok in E as (i & s3 & E3 & E). apply pop_i32_got in E3 as (l2 & El2 & ->). cbn [x_operands set_operands] in El2. subst l1.
    apply bind_inv_ok in E as (ob & s4 & E4 & E). apply pop_array_got in E4 as (l3 & El3 & -> & Ar). cbn [x_operands set_operands] in El3. subst l2.
    apply bind_inv_ok in E as (n & s5 & E5 & E).
    assert (s5 = set_operands (set_operands (set_operands s (VInt I32 i :: VObject ob :: l3)) (VObject ob :: l3)) l3) as ->.
    { pose proof (pure_i32_slice ob (set_operands (set_operands (set_operands s (VInt I32 i :: VObject ob :: l3)) (VObject ob :: l3)) l3)) as Q.
      rewrite E5 in Q. exact Q. }
    apply bind_inv_ok in E as ([] & s6 & E6 & E). injection E as _ <-.
    unfold slice_set in E6. destruct (N.ltb_spec (to_unsigned 64 i) n) as [Li|]; [|discriminate]. apply store_changes in E6 as (B & L & C).
    rewrite len_enc in B, C. change (held_size (HInt I32)) with 4 in *. change (N.of_nat 4) with 4 in *. unfold array_header, to_unsigned in *.
    exists ob, (17 + 4 * Z.to_N (i mod 2 ^ 64)), 4. split; [eapply stores_element; eauto|].
    unfold memory in *. cbn [x_heap set_operands] in B, L, C. change (Z.of_N 64) with 64%Z in *.
    replace (17 + 4 * Z.to_N (i mod 2 ^ 64)) with (17 + Z.to_N (i mod 2 ^ 64) * 4) by lia.
    split; [exact B|]. split; [exact L|]. split; [|exact C].
    exists (set_operands (set_operands (set_operands s (VInt I32 i :: VObject ob :: l3)) (VObject ob :: l3)) l3).
    split; [reflexivity|]. split; [reflexivity|]. right. split; [exact I|]. split; [exact Ar|]. exists n. split; [exact E5|]. lia.
  - (* ldstr *)
    left. unfold ldstr in E. apply bind_inv_ok in E as ([tok fr2] & s2 & E2 & E). apply (still_pure _ (pure_il_get _ _)) in E2.
    apply bind_inv_ok in E as ([text|] & s3 & E3 & E); [|discriminate]. apply still_vm in E3.
    apply bind_inv_ok in E as (ob & s6 & E6 & E). apply alloc_string_extends in E6. apply still_ldc in E.
    unfold extends, memory in *. rewrite E. rewrite E3, E2 in E6. exact E6.
Qed.

(** What executing a method does to the runtime: the registries stay consistent and only grow, and
    the console gets what was written. *)
From Coq Require Import NArith ZArith Arith Lia String List Bool.
From Coq.Strings Require Import Byte.
From Verif Require Import Base BaseFacts Metadata Utf SpecUtf UtfProofs Runtime Value Opcodes Gc Interp SpecRuntime
  RuntimeInv SpecExec SpecFrames InterpFacts InterpInv FrameFacts TraceFacts.
Import ListNotations.
Open Scope N_scope.

Lemma grows_refl s : grows s s.
Proof. split; auto; exists []; now rewrite app_nil_r. Qed.
Lemma grows_trans a b c : grows a b -> grows b c -> grows a c.
Proof.
  intros [? [l0 O] ? [l1 L] [l2 T] [l3 A]] [? [k0 O'] ? [k1 L'] [k2 T'] [k3 A']]. split; try congruence.
  - exists (l0 ++ k0). now rewrite O', O, app_assoc.
  - exists (l1 ++ k1). now rewrite L', L, app_assoc.
  - exists (l2 ++ k2). now rewrite T', T, app_assoc.
  - exists (l3 ++ k3). now rewrite A', A, app_assoc.
Qed.
Lemma evolves_grows s s' : evolves s s' -> grows s s'.
Proof. intros []. split; auto. exists []. now rewrite app_nil_r. Qed.

(** Without console output. *)
Definition quiet (p : profile) (s s' : vm) : Prop :=
  c_output s' = c_output s /\ (consistent p s -> consistent p s' /\ appends s s').
Lemma quiet_refl p s : quiet p s s.
Proof. split; [reflexivity|]. intro W. auto using appends_refl. Qed.
Lemma quiet_trans p a b c : quiet p a b -> quiet p b c -> quiet p a c.
Proof.
  intros [O1 H1] [O2 H2]. split; [congruence|]. intro W. destruct (H1 W) as [W1 A1]. destruct (H2 W1) as [W2 A2].
  eauto using appends_trans.
Qed.

Lemma array_of_output p t s : match array_of p t s with Ok _ s' | Err _ s' => c_output s' = c_output s | _ => True end.
Proof.
  unfold array_of.
  assert (B : forall A B (m : M vm A) (k : A -> M vm B), (forall s, match m s with Ok _ s' | Err _ s' => c_output s' = c_output s | _ => True end) ->
    (forall a s, match k a s with Ok _ s' | Err _ s' => c_output s' = c_output s | _ => True end) ->
    forall s, match bind m k s with Ok _ s' | Err _ s' => c_output s' = c_output s | _ => True end).
  { intros A B m k Hm Hk s0. unfold bind. specialize (Hm s0). destruct (m s0) as [a s1|e s1|w|w|]; auto.
    specialize (Hk a s1). destruct (k a s1); auto; congruence. }
  assert (P : forall A (m : M vm A), pure m -> forall s, match m s with Ok _ s' | Err _ s' => c_output s' = c_output s | _ => True end).
  { intros A m H s0. specialize (H s0). destruct (m s0); subst; auto. }
  revert s. apply B; [apply P, pure_the_type|intro ti].
  intro s0. revert s0. apply B; [apply P, pure_get_type|intros [u|]]; [apply P, pure_ret|].
  apply B; [intro s0; unfold next_type_id; destruct (u_add _ _ _ _); cbn; auto|intro i].
  apply B; [apply P, pure_get_type|intro b]. intro s0. unfold add_type. reflexivity.
Qed.
Lemma array_of_quiet p t s : match array_of p t s with Ok _ s' | Err _ s' => quiet p s s' | _ => True end.
Proof.
  pose proof (array_of_output p t s) as O. pose proof (array_of_pres p s t) as P. unfold pres in P.
  destruct (array_of p t s) as [u s1|e s1|w|w|]; auto; split; auto; intro W; specialize (P W); tauto.
Qed.

(** ** Instructions *)

Definition vm_same (s s' : machine) : Prop := x_vm s' = x_vm s.
Definition silent {A} (m : M machine A) : Prop :=
  forall s, match m s with Ok _ s' | Err _ s' => x_vm s' = x_vm s | _ => True end.
Lemma silent_bind {A B} (m : M machine A) (k : A -> M machine B) : silent m -> (forall a, silent (k a)) -> silent (bind m k).
Proof.
  intros Hm Hk s. unfold bind. specialize (Hm s). destruct (m s) as [a s1|e s1|w|w|]; auto.
  specialize (Hk a s1). destruct (k a s1); auto; congruence.
Qed.
Lemma silent_pure {A} (m : M machine A) : pure m -> silent m.
Proof. intros H s. specialize (H s). destruct (m s); subst; auto. Qed.
Lemma silent_store o d bs : silent (store o d bs).
Proof. intro s. unfold store. destruct (negb _); auto. destruct (_ <=? _); auto. Qed.
Lemma silent_vec_reserve n : silent (vec_reserve n).
Proof. intro s. unfold vec_reserve. cbv zeta. destruct (_ <? _); [|reflexivity]. destruct (_ <? _); [exact Logic.I|reflexivity]. Qed.
Lemma silent_make_room p n : silent (make_room p n).
Proof.
  apply silent_bind.
  - apply silent_bind; [intro s; reflexivity|intro h].
    apply silent_bind; [apply silent_pure, pure_ovf|intro k].
    destruct (_ <? _); [apply silent_vec_reserve|apply silent_pure, pure_ret].
  - intros []. apply silent_bind; [intro s; reflexivity|intro b].
    apply silent_bind; [apply silent_pure, pure_ovf|intro k].
    apply silent_bind; [|intros [] s; reflexivity].
    apply silent_bind; [intro s; reflexivity|intro l]. destruct (_ <? _).
    + apply silent_bind; [apply silent_vec_reserve|intros [] s; reflexivity].
    + intro s. reflexivity.
Qed.
Lemma silent_cell_set c i v : silent (cell_set c i v).
Proof.
  intro s. destruct (cell_set c i v s) as [[] s1|e s1|w|w|] eqn:E; auto.
  - apply cell_set_frames in E. apply E.
  - pose proof (cell_set_no_error c i v s) as N. now rewrite E in N.
Qed.
Lemma silent_stackalloc n : silent (stackalloc n).
Proof. intro s. destruct (stackalloc_run n s) as (s1 & -> & _ & _ & _ & Ev & _). exact Ev. Qed.
Lemma silent_pop : silent pop.
Proof. intro s. unfold pop, bind, try_pop. destruct (x_operands s); cbn; auto. Qed.
Lemma silent_pop_args c : forall n, silent (pop_args c n).
Proof.
  induction n as [|n IH]; cbn [pop_args]; [apply silent_pure, pure_ret|].
  apply silent_bind; [apply silent_pop|intro v]. apply silent_bind; [apply silent_cell_set|intros []]. exact IH.
Qed.

Lemma keeps_silent {A} p s0 (m : M machine A) : silent m ->
  keeps (fun s => quiet p (x_vm s0) (x_vm s)) m (fun _ _ => True).
Proof. intros H s Hs. specialize (H s). destruct (m s); auto; [split; [|exact Logic.I]|]; now rewrite H. Qed.

Lemma vm_invariant p s0 : invariant p (fun s => quiet p (x_vm s0) (x_vm s)) (fun _ _ _ _ => True).
Proof.
  split.
  - intros s l H. exact H.
  - intros. apply keeps_silent, silent_store.
  - intros. apply keeps_silent, silent_make_room.
  - intros t s Hs. unfold on_vm. pose proof (array_of_quiet p t (x_vm s)) as Q.
    destruct (array_of p t (x_vm s)) as [u v|e v|w|w|]; auto; cbn; [split; [|exact Logic.I]|]; eapply quiet_trans; eauto.
  - intros m r. cbn zeta. apply keeps_silent. apply silent_bind; [apply silent_stackalloc|intro c].
    apply silent_bind; [apply silent_pop_args|intros []]. apply silent_pure, pure_ret.
Qed.
Lemma vm_writable p fr s0 : writable fr (fun s => quiet p (x_vm s0) (x_vm s)).
Proof. intros c i v _. apply keeps_silent, silent_cell_set. Qed.

Lemma step_quiet f p fr s :
  match step f p fr s with Ok _ s' | Err _ s' => quiet p (x_vm s) (x_vm s') | _ => True end.
Proof.
  pose proof (keeps_step p fr _ _ (vm_invariant p s) f fr (vm_writable p fr s) (same_frame_refl fr) s (quiet_refl p (x_vm s))) as H.
  destruct (step f p fr s); auto. apply H.
Qed.

(** ** Executions *)

Definition prints (p : profile) (text : list N) (s s' : vm) : Prop :=
  c_output s' = c_output s ++ text /\ (consistent p s -> consistent p s' /\ grows s s').
Lemma quiet_prints p s s' : quiet p s s' -> prints p [] s s'.
Proof.
  intros [O H]. split; [now rewrite app_nil_r|]. intro W. destruct (H W) as [W' A]. split; [exact W'|].
  apply evolves_grows, appends_evolves, A.
Qed.
Lemma prints_trans p t u a b c : prints p t a b -> prints p u b c -> prints p (t ++ u) a c.
Proof.
  intros [O1 H1] [O2 H2]. split; [rewrite O2, O1; apply app_assoc_reverse|]. intro W.
  destruct (H1 W) as [W1 A1]. destruct (H2 W1) as [W2 A2]. eauto using grows_trans.
Qed.
Lemma set_output_prints p s text : prints p text s (set_output s (c_output s ++ text)).
Proof.
  split; [reflexivity|]. intro W. split.
  - destruct W. split; auto.
  - split; cbn; eauto; exists []; now rewrite app_nil_r.
Qed.
Lemma written_app t u : written (t ++ u) = written t ++ written u.
Proof. induction t as [|[fr s|x] t IH]; cbn; auto. now rewrite IH, app_assoc. Qed.

Lemma enters_vm m b c s fr s' : enters m b c s fr s' -> x_vm s' = x_vm s.
Proof. now intros (ti & ai & gen & cap & _ & _ & _ & _ & ->). Qed.
Lemma leaves_vm s s' s'' : leaves s s' s'' -> x_vm s'' = x_vm s'.
Proof. now intros ->. Qed.

Theorem runs_prints p :
  (forall fr s t e, runs p fr s t e -> prints p (written t) (x_vm s) (x_vm (final e))) /\
  (forall m c s t e, calls p m c s t e -> prints p (written t) (x_vm s) (x_vm (final e))).
Proof.
  apply (traces_ind p (fun fr s t e _ => prints p (written t) (x_vm s) (x_vm (final e)))
                      (fun m c s t e _ => prints p (written t) (x_vm s) (x_vm (final e)))); cbn [final written].
  - intros f fr s e s' E. pose proof (step_quiet f p fr s) as Q. rewrite E in Q. now apply quiet_prints.
  - intros f fr s v s' E. pose proof (step_quiet f p fr s) as Q. rewrite E in Q. now apply quiet_prints.
  - intros f fr s fr' s' t e E _ IH. pose proof (step_quiet f p fr s) as Q. rewrite E in Q.
    apply quiet_prints in Q. exact (prints_trans _ _ _ _ _ _ Q IH).
  - intros f fr s m c r fr' s1 t1 v s2 t2 e E _ IH1 _ IH2. pose proof (step_quiet f p fr s) as Q. rewrite E in Q.
    apply quiet_prints in Q. rewrite written_app.
    exact (prints_trans _ _ _ _ _ _ Q (prints_trans _ _ _ _ _ _ IH1 IH2)).
  - intros f fr s m c r fr' s1 t1 e s2 E _ IH1. pose proof (step_quiet f p fr s) as Q. rewrite E in Q.
    apply quiet_prints in Q. exact (prints_trans _ _ _ _ _ _ Q IH1).
  - intros m b c s fr s1 t v s2 s3 _ En _ IH L. now rewrite (leaves_vm _ _ _ L), <- (enters_vm _ _ _ _ _ _ En).
  - intros m b c s fr s1 t v s2 s3 _ En _ IH L. now rewrite (leaves_vm _ _ _ L), <- (enters_vm _ _ _ _ _ _ En).
  - intros m c s o text r s' _ Hv [Sc [Hs Hd]] E. pose proof (console_write_run c s) as H. rewrite E in H.
    destruct H as (_ & o' & units & text' & Hv' & Hs' & Hd' & Hu & ->).
    apply variable_cell_get in Hv. assert (o' = o) by congruence. subst o'.
    assert (units = utf16_encode text) by congruence. subst units.
    rewrite utf16_decode_encode in Hu by assumption. injection Hu as <-.
    cbn [x_vm set_vm]. rewrite app_nil_r. apply set_output_prints.
Qed.

(** [execute] and the relation. *)
Definition reported (e : ending) : option (run_result * list value) :=
  match e with
  | Done (Some (VObject _)) _ => None
  | Done (Some v) s => Some (RValue v, x_host s)
  | Done None s => Some (RVoid, x_host s)
  | Failed w s => Some (RErr w, x_host s)
  end.
Lemma execute_executes p fuel m params s r s' : execute fuel p m params s = Ok r s' ->
  (mt_static m = false /\ s' = s /\ r = (RErr "Cannot use non-static method", params)) \/
  (mt_static m = true /\ exists t e, executes p m params s t e /\ reported e = Some r /\ s' = x_vm (final e)).
Proof.
  unfold execute. destruct (mt_static m); cbn [negb].
  - intro H. right. split; [reflexivity|].
    destruct (invoke (run fuel p) m CHost (new_machine s params)) as [v s1|w s1|w|w|] eqn:E; try discriminate.
    + destruct (invoke_calls p fuel (run_runs p fuel) m CHost (new_machine s params) (Done v s1) E) as [t Ht].
      exists t, (Done v s1). split; [exact Ht|].
      destruct v as [[| | |]|]; try discriminate; injection H as <- <-; auto.
    + destruct (invoke_calls p fuel (run_runs p fuel) m CHost (new_machine s params) (Failed w s1) E) as [t Ht].
      exists t, (Failed w s1). split; [exact Ht|]. injection H as <- <-. auto.
  - intro H. left. split; [reflexivity|]. destruct (the_type _ s); try discriminate. injection H as <- <-. auto.
Qed.
Lemma execute_ok p fuel m params s r s' : consistent p s -> execute fuel p m params s = Ok r s' ->
  consistent p s' /\ grows s s'.
Proof.
  intros W E. apply execute_executes in E. destruct E as [(_ & -> & _)|(_ & t & e & H & _ & ->)].
  - auto using grows_refl.
  - exact (proj2 (proj2 (runs_prints p) _ _ _ _ _ H) W).
Qed.

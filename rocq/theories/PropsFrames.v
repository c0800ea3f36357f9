(** Frames and executions: C51 to C56, C58 and C62. *)
From Coq Require Import NArith ZArith Arith Lia String List Bool.
From Coq.Strings Require Import Byte.
From Verif Require Import Base BaseFacts Metadata Utf SpecUtf Runtime Loader Value Opcodes Gc Interp SpecRuntime SpecHistory
  HistoryProofs RuntimeInv SpecExec SpecFrames InterpFacts InterpInv FrameFacts TraceFacts VmFacts CallFacts TraceProps
  DemoStates DemoRuns TraceRun.
Import ListNotations.
Open Scope N_scope.

(** An execution of an example with a given report. *)
Lemma run_example p n params s r s' : execute n p (lab s) params demo_lab = Ok r s' -> mt_static (lab s) = true ->
  exists t e, executes p (lab s) params demo_lab t e /\ reported e = Some r /\ s' = x_vm (final e).
Proof. intros E St. apply execute_executes in E. destruct E as [(X & _)|(_ & H)]; [congruence|exact H]. Qed.

(** ** C51: when a call ends, with a result or an error, the storage is as it was, except for the
       cells that hold the call's arguments, which the callee may have assigned. *)

Theorem C51_frames_release : forall p m args s t e, calls p m args s t e ->
  in_use (final e) = in_use s /\ x_alloc (final e) = x_alloc s /\
  forall i, ~ in_group args i -> nth_error (k_cells (x_frames (final e))) i = nth_error (k_cells (x_frames s)) i.
Proof.
  intros p m args s t e H. apply calls_restores in H. destruct H. split; [exact re_size|]. split; [exact re_alloc|].
  intros i Hi. destruct (Nat.lt_ge_cases i (List.length (k_cells (x_frames s)))) as [L|L]; [auto|].
  rewrite (proj2 (nth_error_None _ _)) by (unfold len in re_size; lia).
  symmetry. now apply nth_error_None.
Qed.

(** Nothing is left when an execution started by the host ends. *)
Theorem C51_nothing_left : forall p m params s t e, executes p m params s t e -> in_use (final e) = 0.
Proof. intros p m params s t e H. apply calls_restores in H. apply H. Qed.

(** A recursive method, and one that fails with an error. *)
Example C51_ex p : exists t e s', executes p (lab "Deep") (ints [5%Z]) demo_lab t e /\
  reported e = Some (RValue (VInt I32 15), ints [5%Z]) /\ s' = x_vm (final e).
Proof.
  destruct (run_example p 100 (ints [5%Z]) "Deep" (RValue (VInt I32 15), ints [5%Z]) demo_lab) as (t & e & H & R & X);
    [destruct p; vm_compute; reflexivity..|]. eauto 6.
Qed.
Example C51_ex_error p : exists t e, executes p (app "Guarded") [] demo_app t e /\
  exists w, reported e = Some (RErr w, []).
Proof.
  assert (E : exists w, execute 100 p (app "Guarded") [] demo_app = Ok (RErr w, []) demo_app).
  { eexists. destruct p; vm_compute; reflexivity. }
  destruct E as [w E]. apply execute_executes in E.
  destruct E as [(X & _)|(_ & t & e & H & R & _)]; [vm_compute in X; discriminate X|]. eauto 6.
Qed.

(** ** C52: a call changes no variable of its caller nor of any frame below it, neither at its end
       nor at any moment in between. *)

Theorem C52_callee_cannot_change : forall p fuel fr s m args r fr' s1 t e,
  step fuel p fr s = Ok (OCall m args r fr') s1 -> calls p m args s1 t e ->
  forall s', s' = s1 \/ s' = final e \/ (exists fr2, In (At fr2 s') t) ->
  x_host s' = x_host s /\
  forall i, (i < N.to_nat (in_use s))%nat -> nth_error (k_cells (x_frames s')) i = nth_error (k_cells (x_frames s)) i.
Proof.
  intros p fuel fr s m args r fr' s1 t e E Hc s' H.
  set (fr0 := mkFrame (fr_method fr) (fr_assembly fr) (fr_code fr) (fr_ip fr) (CFrames 0 0 0) (CFrames 0 0 0)).
  (* the instruction itself *)
  assert (A : advances fr0 s s1 /\ exists g base n, args = CFrames g base n /\ in_use s <= base).
  { (* the groups of the frame do not matter to a call instruction *)
    pose proof (step_advances fuel p fr s) as A. rewrite E in A. destruct A as (_ & _ & g & base & n & -> & Hb & _).
    split; [|unfold in_use; eauto 6].
    exact (proj1 (keeps_step_call p fr _ _ (frames_invariant p fr0 s) fuel fr s _ _ _ _ _ (same_frame_refl fr) (advances_refl fr0 s) E)). }
  destruct A as [A (g & base & n & -> & Hb)]. apply advances_untouched in A. destruct A as (L1 & C1 & H1).
  assert (S1 : x_host s1 = x_host s) by (apply H1; split; discriminate).
  assert (N1 : forall i, (i < N.to_nat (in_use s))%nat -> nth_error (k_cells (x_frames s1)) i = nth_error (k_cells (x_frames s)) i).
  { intros i Hi. apply C1; [unfold in_use, len in Hi; lia|]. unfold not_of. cbn. lia. }
  assert (U : forall i, (i < N.to_nat (in_use s))%nat -> ~ in_group (CFrames g base n) i) by (intros i Hi; cbn; lia).
  assert (L : (N.to_nat (in_use s) <= List.length (k_cells (x_frames s1)))%nat) by (unfold in_use, len; lia).
  destruct H as [-> |[-> |[fr2 H]]].
  - auto.
  - apply calls_restores in Hc. destruct Hc. split; [rewrite re_host; [exact S1|discriminate]|].
    intros i Hi. rewrite re_cells; auto. lia.
  - destruct (proj2 (runs_untouched p) _ _ _ _ _ Hc _ _ H) as (L2 & C2 & H2).
    split; [rewrite H2; [exact S1|discriminate]|]. intros i Hi. rewrite C2; auto. lia.
Qed.

(** In terms of variables: as long as the storage has not moved (see C53), every variable that had
    a value before the call has it afterwards and meanwhile. *)
Theorem C52_variables_kept : forall p fuel fr s m args r fr' s1 t e,
  step fuel p fr s = Ok (OCall m args r fr') s1 -> calls p m args s1 t e ->
  forall s', s' = s1 \/ s' = final e \/ (exists fr2, In (At fr2 s') t) ->
  k_gen (x_frames s') = k_gen (x_frames s) ->
  forall c i v, variable s c i v -> variable s' c i v.
Proof.
  intros p fuel fr s m args r fr' s1 t e E Hc s' H G c i v V.
  destruct (C52_callee_cannot_change _ _ _ _ _ _ _ _ _ _ _ E Hc s' H) as [Hh Hn].
  destruct c as [|g base n]; cbn in *.
  - now rewrite Hh.
  - destruct V as (-> & Hi & V). split; [congruence|]. split; [exact Hi|]. rewrite Hn; [exact V|].
    unfold in_use, len. assert (N.to_nat (base + i) < List.length (k_cells (x_frames s)))%nat by (apply nth_error_Some; congruence).
    lia.
Qed.

(** ** C53: the storage moves when more than 64 cells are in use; the variables of the frames that
       are running are lost then. *)

(** A loop that calls a method with two arguments 40 times, and a recursion of depth 66. *)
Theorem C53_frames_valid_refuted : forall p, exists s m params, history p no_files [] s /\ mt_static m = true /\
  execute 1000 p m params s = Ub "access to memory that has been freed".
Proof. intro p. exists demo_lab, (lab "Many"), (ints [40%Z]). split; [apply demo_lab_history|]. split; destruct p; vm_compute; reflexivity. Qed.
Theorem C53_recursion_refuted : forall p, exists s m params, history p no_files [] s /\ mt_static m = true /\
  execute 1000 p m params s = Ub "access to memory that has been freed".
Proof. intro p. exists demo_lab, (lab "Deep"), (ints [66%Z]). split; [apply demo_lab_history|]. split; destruct p; vm_compute; reflexivity. Qed.

(** As long as there is room, all variables of the running frame are accessible at every moment. *)
Theorem C53_frames_valid_partial : forall p m params s t e, executes p m params s t e ->
  (forall fr s', In (At fr s') t -> in_use s' <= 64) ->
  forall fr s', In (At fr s') t -> accessible s' (fr_locals fr) /\ accessible s' (fr_params fr).
Proof.
  intros p m params s t e H En fr s' I.
  destruct (proj2 (runs_current p) _ _ _ _ _ H Logic.I En) as [C _]. destruct (C _ _ I) as [A B].
  split; now apply current_accessible.
Qed.

(** Recursion of depth 64, with that many cells in use at some moment. *)
Example C53_frames_valid_ex p : exists t e, executes p (lab "Deep") (ints [64%Z]) demo_lab t e /\
  (forall fr s', In (At fr s') t -> in_use s' <= 64) /\ (exists fr s', In (At fr s') t /\ in_use s' = 64).
Proof.
  destruct (trace_check 500 p (lab "Deep") (ints [64%Z]) demo_lab (fun t _ =>
    forallb (fun x => match x with At _ s => in_use s <=? 64 | _ => true end) t &&
    existsb (fun x => match x with At _ s => in_use s =? 64 | _ => false end) t)) as (t & e & H & C);
    [destruct p; vm_compute; reflexivity|].
  exists t, e. split; [exact H|]. apply andb_prop in C. destruct C as [C1 C2]. split.
  - intros fr s' I. rewrite forallb_forall in C1. specialize (C1 _ I). now apply N.leb_le.
  - apply existsb_exists in C2. destruct C2 as ([fr s'|] & I & C2); [|discriminate]. apply N.eqb_eq in C2. eauto.
Qed.

(** ** C54 *)

(** Whatever the budget, the outcome is the same unless the budget runs out. *)
Theorem C54_budget : forall p fuel fuel' m params s,
  execute fuel p m params s <> NoFuel -> (fuel <= fuel')%nat ->
  execute fuel' p m params s = execute fuel p m params s.
Proof.
  intros p fuel fuel' m params s N L. unfold execute in *. destruct (negb (mt_static m)); [reflexivity|].
  destruct (invoke (run fuel p) m CHost (new_machine s params)) as [v s1|w s1|w|w|] eqn:E; try (exfalso; now apply N);
    rewrite (invoke_more p fuel fuel' _ _ _ _ E) by (discriminate || exact L); reflexivity.
Qed.
Theorem C54_one_outcome : forall p fuel fuel' m params s,
  execute fuel p m params s <> NoFuel -> execute fuel' p m params s <> NoFuel ->
  execute fuel p m params s = execute fuel' p m params s.
Proof.
  intros p f f' m params s N N'. rewrite <- (C54_budget p f (f + f')) by (auto; lia).
  apply C54_budget; auto; lia.
Qed.
(** The sequence of instructions, states and console writes is determined as well. *)
Theorem C54_one_trace : forall p m params s t e t' e',
  executes p m params s t e -> executes p m params s t' e' -> t = t' /\ e = e'.
Proof. intros p m params s t e t' e' H H'. exact (proj2 (runs_deterministic p) _ _ _ _ _ H _ _ H'). Qed.
(** The interpreter finds exactly the executions of the relation. *)
Theorem C54_loop_is_trace : forall p m params s r s', mt_static m = true ->
  (exists fuel, execute fuel p m params s = Ok r s') <->
  (exists t e, executes p m params s t e /\ reported e = Some r /\ s' = x_vm (final e)).
Proof.
  intros p m params s r s' St. split.
  - intros [f H]. apply execute_executes in H. destruct H as [(X & _)|(_ & H)]; [congruence|exact H].
  - intros (t & e & H & R & ->). apply (proj2 (runs_run p)) in H. destruct H as [f H]. exists f.
    unfold execute. rewrite St. cbn [negb]. destruct e as [[v|] s1|w s1]; cbn in H; rewrite H; cbn in R |- *.
    + destruct v; try discriminate R; injection R as <-; reflexivity.
    + now injection R as <-.
    + now injection R as <-.
Qed.

Example C54_ex p : execute 100 p (lab "Deep") (ints [5%Z]) demo_lab <> NoFuel /\
  execute 10 p (lab "Deep") (ints [5%Z]) demo_lab = NoFuel.
Proof. destruct p; split; vm_compute; (discriminate || reflexivity). Qed.

(** ** C55 *)

(** At the end, the console has the old output followed by everything written, in order. *)
Theorem C55_output_appended : forall p m params s t e, executes p m params s t e ->
  c_output (x_vm (final e)) = c_output s ++ written t.
Proof. intros p m params s t e H. exact (proj1 (proj2 (runs_prints p) _ _ _ _ _ H)). Qed.
(** The same at every moment in between. *)
Theorem C55_output_meanwhile : forall p m params s t1 fr s' t2 e, executes p m params s (t1 ++ At fr s' :: t2) e ->
  c_output (x_vm s') = c_output s ++ written t1.
Proof. intros p m params s t1 fr s' t2 e H. exact (proj2 (runs_output p) _ _ _ _ _ H _ _ _ _ eq_refl). Qed.
(** For any use of the API: output is only ever added to. *)
Theorem C55_append_only : forall p fs paths s s', history p fs paths s -> later p fs s s' ->
  exists text, c_output s' = c_output s ++ text.
Proof.
  intros p fs paths s s' H L. destruct (history_ok _ _ _ _ H) as (W & _).
  destruct (later_ok _ _ _ _ L W) as [_ G]. apply G.
Qed.

(** Four writes, of two texts: "a", "a", then an e with an accent and an emoji, twice. *)
Example C55_ex p : exists t e, executes p (lab "Hello") [] demo_lab t e /\ written t = [97; 97; 233; 128512; 233; 128512].
Proof.
  destruct (execute 100 p (lab "Hello") [] demo_lab) as [r s'| | | |] eqn:E;
    try (exfalso; destruct p; vm_compute in E; discriminate E).
  assert (O : c_output s' = [97; 97; 233; 128512; 233; 128512]).
  { assert (X : match execute 100 p (lab "Hello") [] demo_lab with Ok _ s => c_output s | _ => [] end
                = [97; 97; 233; 128512; 233; 128512]) by (destruct p; vm_compute; reflexivity).
    now rewrite E in X. }
  destruct (run_example p 100 [] "Hello" r s' E eq_refl) as (t & e & H & R & X). exists t, e. split; [exact H|].
  pose proof (C55_output_appended _ _ _ _ _ _ H) as Y. rewrite <- X, O in Y.
  replace (c_output demo_lab) with (@nil N) in Y by reflexivity. symmetry. exact Y.
Qed.

(** ** C56 *)

(** A local variable of type [long] that is not assigned reads as the [sbyte] 0; adding 1 to an
    [int] that is not assigned is a panic. *)
Theorem C56_zero_refuted : forall p, exists s m b, history p no_files [] s /\ mt_impl m = IIL b /\
  List.length (b_locals b) = 1%nat /\ b_code b = [x06; x2a] /\
  (forall t, In t (b_locals b) -> exists ti, nth_error (c_types s) t = Some ti /\ ti_full_name ti = bytes_of_string "System.Int64") /\
  execute 10 p m [] s = Ok (RValue (VInt I8 0), []) s.
Proof.
  intro p. exists demo_lab, (lab "Unset"). eexists. split; [apply demo_lab_history|]. split; [vm_compute; reflexivity|].
  split; [reflexivity|]. split; [reflexivity|]. split; [|destruct p; vm_compute; reflexivity].
  intros t [<-|[]]. eexists. split; vm_compute; reflexivity.
Qed.
Theorem C56_use_refuted : forall p, exists s m b, history p no_files [] s /\ mt_impl m = IIL b /\
  List.length (b_locals b) = 1%nat /\ b_code b = [x06; x17; x58; x2a] /\
  exists why, execute 10 p m [] s = Panic why.
Proof.
  intro p. exists demo_lab, (lab "UnsetAdd"). eexists. split; [apply demo_lab_history|]. split; [vm_compute; reflexivity|].
  split; [reflexivity|]. split; [reflexivity|]. eexists. destruct p; vm_compute; reflexivity.
Qed.

(** What holds: a frame that is entered has exactly as many local variables as the body declares,
    and each of them is a zero, of type [sbyte]. *)
Theorem C56_zero_partial : forall m b args s fr s1, enters m b args s fr s1 ->
  forall i, (exists v, variable s1 (fr_locals fr) i v) <-> i < len (b_locals b).
Proof.
  intros m b args s fr s1 En i. destruct En as (ti & ai & gen & cap & _ & _ & _ & -> & ->). cbn. split.
  - intros (v & _ & H & _). exact H.
  - intro H. exists (VInt I8 0). split; [reflexivity|]. split; [exact H|].
    rewrite nth_error_app2 by (unfold in_use, len; lia).
    rewrite (nth_error_nth' _ (VInt I8 0)) by (rewrite repeat_length; unfold in_use, len in *; lia).
    now rewrite nth_repeat.
Qed.
Theorem C56_value_partial : forall m b args s fr s1, enters m b args s fr s1 ->
  forall i v, variable s1 (fr_locals fr) i v -> v = VInt I8 0 /\ zero_value v.
Proof.
  intros m b args s fr s1 En i v H. destruct En as (ti & ai & gen & cap & _ & _ & _ & -> & ->). cbn in H.
  destruct H as (_ & Hi & H). rewrite nth_error_app2 in H by (unfold in_use, len; lia).
  apply nth_error_In, repeat_spec in H. subst v. split; [reflexivity|constructor].
Qed.

(** ** Examples for C52 and C56 *)

(** The loop of the method Many with two local variables, about to call Minus. *)
Definition many_frame : frame :=
  mkFrame (lab "Many") 2%nat (match mt_impl (lab "Many") with IIL b => b_code b | _ => [] end) 8 (CFrames 0 0 2) CHost.
Definition many_state : machine :=
  mkMachine demo_lab (mkHeap 0 1024 []) (mkFrames 0 64 [VInt I32 3; VInt I32 20]) 2 [VInt I32 3; VInt I32 20] (ints [5%Z]).
Example C52_ex p : exists m args r fr' s1 t e, step 10 p many_frame many_state = Ok (OCall m args r fr') s1 /\
  calls p m args s1 t e /\ (exists v, e = Done (Some v) (final e) /\ v = VInt I32 17) /\
  in_use many_state = 2 /\ k_gen (x_frames (final e)) = k_gen (x_frames many_state) /\
  variable many_state (fr_locals many_frame) 1 (VInt I32 20).
Proof.
  destruct (step 10 p many_frame many_state) as [[|v|m args r fr'] s1| | | |] eqn:E;
    try (exfalso; destruct p; vm_compute in E; discriminate E).
  exists m, args, r, fr', s1.
  assert (X : match trace_call (trace_run 20 p) m args s1 with
              | Some (_, Done (Some (VInt I32 17)) s2) => Nat.eqb (k_gen (x_frames s2)) 0
              | _ => false end = true).
  { assert (Y : match step 10 p many_frame many_state with
                | Ok (OCall m args r fr') s1 =>
                    match trace_call (trace_run 20 p) m args s1 with
                    | Some (_, Done (Some (VInt I32 17)) s2) => Nat.eqb (k_gen (x_frames s2)) 0
                    | _ => false end
                | _ => false end = true) by (destruct p; vm_compute; reflexivity).
    now rewrite E in Y. }
  destruct (trace_call (trace_run 20 p) m args s1) as [[t [v s2|]]|] eqn:Et; try discriminate X.
  apply (trace_call_ok p (trace_run 20 p) (trace_run_ok p 20)) in Et.
  exists t, (Done v s2). split; [reflexivity|]. split; [exact Et|]. cbn [final].
  assert (V : v = Some (VInt I32 17) /\ k_gen (x_frames s2) = 0%nat).
  { destruct v as [[[] z| | |]|]; try discriminate X. destruct z as [|z|z]; try discriminate X.
    do 5 (destruct z as [z|z|]; try discriminate X). split; [reflexivity|now apply Nat.eqb_eq]. }
  destruct V as [-> G]. split; [exists (VInt I32 17); auto|]. split; [reflexivity|]. split; [exact G|].
  vm_compute. auto.
Qed.

Example C56_ex : exists b fr s1, mt_impl (lab "Many") = IIL b /\ len (b_locals b) = 2 /\
  enters (lab "Many") b CHost (new_machine demo_lab (ints [5%Z])) fr s1.
Proof.
  eexists. eexists. eexists. split; [vm_compute; reflexivity|]. split; [reflexivity|].
  eexists. eexists. eexists. eexists. cbv zeta. split; [vm_compute; reflexivity|]. split; [vm_compute; reflexivity|].
  split; [vm_compute; split; reflexivity|]. split; reflexivity.
Qed.

(** ** C58 *)

Theorem C58_only_static : forall p fs paths fuel s t ti m params, history p fs paths s ->
  nth_error (c_types s) t = Some ti -> In m (ti_methods ti) -> mt_static m = false ->
  execute fuel p m params s = Ok (RErr "Cannot use non-static method", params) s.
Proof.
  intros p fs paths fuel s t ti m params H E I St. destruct (history_ok _ _ _ _ H) as (W & _).
  unfold execute. rewrite St. cbn [negb].
  pose proof (types_ok _ _ W) as V. rewrite Forall_forall in V. specialize (V ti (nth_error_In _ _ E)).
  destruct V as (_ & _ & _ & Vm & _). rewrite Forall_forall in Vm. destruct (Vm m I) as (Vd & _).
  unfold the_type. destruct (nth_error (c_types s) (mt_declaring m)) eqn:D; [reflexivity|].
  apply nth_error_None in D. unfold v_type_ref in Vd. lia.
Qed.
Theorem C58_only_static_of_assembly : forall p fs paths fuel s a ai m params, history p fs paths s ->
  nth_error (c_arena s) a = Some (Some ai) ->
  In m (a_method_defs ai) \/ In m (a_method_refs ai) \/ a_entry ai = Some m -> mt_static m = false ->
  execute fuel p m params s = Ok (RErr "Cannot use non-static method", params) s.
Proof.
  intros p fs paths fuel s a ai m params H E I St. destruct (history_ok _ _ _ _ H) as (W & _).
  unfold execute. rewrite St. cbn [negb].
  assert (Vd : (mt_declaring m < length (c_types s))%nat).
  { destruct (arena_ok _ _ W a ai E) as (_ & Ve & Vm & Vr & _). rewrite Forall_forall in Vm, Vr.
    destruct I as [I|[I|I]]; [destruct (Vm m I)|destruct (Vr m I)|rewrite I in Ve; destruct Ve]; assumption. }
  unfold the_type. destruct (nth_error (c_types s) (mt_declaring m)) eqn:D; [reflexivity|].
  apply nth_error_None in D. lia.
Qed.
Example C58_ex : exists t ti m, nth_error (c_types demo_lab) t = Some ti /\ In m (ti_methods ti) /\ mt_static m = false.
Proof.
  exists 22%nat. eexists. eexists. split; [vm_compute; reflexivity|]. cbn [ti_methods]. split; [left; reflexivity|reflexivity].
Qed.

(** ** C62: executing a method that returns an object gives its data.  It does not: the heap is
       gone when the data is read. *)

Theorem C62_object_result_refuted : forall p m params s t o s', mt_static m = true ->
  executes p m params s t (Done (Some (VObject o)) s') ->
  exists fuel, forall fuel', (fuel <= fuel')%nat ->
    execute fuel' p m params s = Ub "access to memory that has been freed".
Proof.
  intros p m params s t o s' St H. apply (proj2 (runs_run p)) in H. destruct H as [f H]. cbn in H. exists f.
  intros f' L. unfold execute. rewrite St. cbn [negb].
  now rewrite (invoke_more p f f' _ _ _ _ H) by (discriminate || exact L).
Qed.
Example C62_ex p : exists t o s', executes p (lab "Make") [] demo_lab t (Done (Some (VObject o)) s').
Proof.
  destruct (trace_check 100 p (lab "Make") [] demo_lab (fun _ e =>
    match e with Done (Some (VObject _)) _ => true | _ => false end)) as (t & e & H & C);
    [destruct p; vm_compute; reflexivity|].
  destruct e as [[[| | |o]|] s'|]; try discriminate C. eauto.
Qed.
(** All other results are reported as they are. *)
Theorem C62_other_results_partial : forall p m params s t v s', mt_static m = true ->
  executes p m params s t (Done v s') -> (forall o, v <> Some (VObject o)) ->
  exists fuel, forall fuel', (fuel <= fuel')%nat ->
    execute fuel' p m params s = Ok (match v with Some x => RValue x | None => RVoid end, x_host s') (x_vm s').
Proof.
  intros p m params s t v s' St H No. apply (proj2 (runs_run p)) in H. destruct H as [f H]. cbn in H. exists f.
  intros f' L. unfold execute. rewrite St. cbn [negb].
  rewrite (invoke_more p f f' _ _ _ _ H) by (discriminate || exact L).
  destruct v as [[]|]; try reflexivity. now elim (No o).
Qed.

Print Assumptions C51_frames_release.
Print Assumptions C52_callee_cannot_change.
Print Assumptions C53_frames_valid_partial.
Print Assumptions C54_one_trace.
Print Assumptions C54_loop_is_trace.
Print Assumptions C55_output_meanwhile.
Print Assumptions C55_append_only.
Print Assumptions C56_zero_partial.
Print Assumptions C58_only_static.
Print Assumptions C62_object_result_refuted.

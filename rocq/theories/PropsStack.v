(** Calls and the operand stack: C50 and C63. *)
From Coq Require Import NArith ZArith Arith Lia String List Bool.
From Coq.Strings Require Import Byte.
From Verif Require Import Base BaseFacts Metadata Runtime Value Opcodes Gc Interp SpecRuntime RuntimeInv SpecHistory HistoryProofs
  SpecExec SpecFrames SpecStack InterpFacts InterpInv FrameFacts TraceFacts VmFacts CallFacts TraceProps TraceRun
  DemoStates DemoRuns StackFacts StackProofs.
Import ListNotations.
Open Scope N_scope.

(** ** C50: arguments *)

(** [call]: parameter i of the callee is the i-th argument pushed, and the arguments are gone from
    the caller's operands. *)
Theorem C50_arguments : forall fuel p fr s bs m args rest,
  code_here fr (x28 :: bs) -> List.length bs = 4%nat -> denotes (x_vm s) (fr_assembly fr) (Z.to_N (number bs)) m ->
  x_operands s = rev args ++ rest -> List.length args = arguments m ->
  exists fr' c s', step fuel p fr s = Ok (OCall m c None fr') s' /\ frame_at fr fr' (fr_ip fr + 5) /\
    (forall i v, variable s' c i v <-> nth_error args (N.to_nat i) = Some v) /\
    x_operands s' = rest /\ x_vm s' = x_vm s /\ x_heap s' = x_heap s /\ x_host s' = x_host s.
Proof. intros fuel p fr s bs m args rest C L D O La. exact (step_call fuel p fr s bs m args rest C L D O La). Qed.

(** [newobj]: parameter 0 is the new object, followed by the arguments. *)
Theorem C50_constructor_arguments : forall fuel p fr s bs m args rest o s',
  code_here fr (x73 :: bs) -> List.length bs = 4%nat -> denotes (x_vm s) (fr_assembly fr) (Z.to_N (number bs)) m ->
  mt_static m = false -> x_operands s = rev args ++ rest -> List.length args = List.length (mt_params m) ->
  step fuel p fr s = Ok o s' ->
  exists fr' c ob, o = OCall m c (Some (VObject ob)) fr' /\ frame_at fr fr' (fr_ip fr + 5) /\
    (forall i v, variable s' c i v <-> nth_error (VObject ob :: args) (N.to_nat i) = Some v) /\
    x_operands s' = rest /\ x_vm s' = x_vm s.
Proof.
  intros fuel p fr s bs m args rest o s' C L D St O La E.
  destruct (step_newobj fuel p fr s bs m args rest o s' C L D St O La E) as (fr' & c & ob & H1 & H2 & H3 & H4 & H5 & _).
  exists fr', c, ob. auto.
Qed.

(** ** C50: results *)

(** Nothing keeps a method from leaving operands behind, or from taking its caller's: UseJunk
    computes 7, calls a void method and returns, and the result is 0; UseThief returns the wrong
    one of two numbers. *)
Theorem C50_result_refuted p :
  ~ (forall m c s t v s', calls p m c s t (Done v s') -> x_operands s' = x_operands s).
Proof.
  intro H.
  destruct (trace_check 100 p (lab "Junk") [] demo_lab (fun _ e =>
    match e with Done None s' => Nat.eqb (List.length (x_operands s')) 1 | _ => false end)) as (t & e & X & C);
    [destruct p; vm_compute; reflexivity|].
  destruct e as [[v|] s'|w s']; try discriminate C. apply H in X. rewrite X in C. discriminate C.
Qed.
Theorem C50_left_behind_refuted p :
  execute 100 p (lab "UseJunk") [] demo_lab = Ok (RValue (VInt I32 0), []) demo_lab /\
  execute 100 p (lab "UseThief") [] demo_lab = Ok (RValue (VInt I32 7), []) demo_lab.
Proof. destruct p; vm_compute; auto. Qed.

(** For methods with consistent stacks: the execution of a call instruction either ends with an
    error of the callee or goes on behind the instruction with exactly the result, if any, on top of
    what was below the arguments. *)
Theorem C50_call_partial : forall p T fr s t e bs m n args rest,
  consistent p (x_vm s) -> verified (x_vm s) T -> T m -> results (x_vm s) m n ->
  code_here fr (x28 :: bs) -> List.length bs = 4%nat -> denotes (x_vm s) (fr_assembly fr) (Z.to_N (number bs)) m ->
  x_operands s = rev args ++ rest -> List.length args = arguments m ->
  runs p fr s t e ->
  exists fr' c s1 t1, (forall i v, variable s1 c i v <-> nth_error args (N.to_nat i) = Some v) /\
    frame_at fr fr' (fr_ip fr + 5) /\
    ((exists w s2, calls p m c s1 t1 (Failed w s2) /\ e = Failed w s2 /\ t = At fr s :: t1) \/
     (exists v s2 t2, calls p m c s1 t1 (Done v s2) /\ t = At fr s :: t1 ++ t2 /\
        match v with
        | Some x => n = 1%nat /\ runs p fr' (with_operands s2 (x :: rest)) t2 e
        | None => n = 0%nat /\ runs p fr' (with_operands s2 rest) t2 e
        end)).
Proof.
  intros p T fr s t e bs m n args rest W V Tm R C L D O La H.
  assert (S : forall f, exists fr' c s1, step f p fr s = Ok (OCall m c None fr') s1 /\ frame_at fr fr' (fr_ip fr + 5) /\
    (forall i v, variable s1 c i v <-> nth_error args (N.to_nat i) = Some v) /\
    x_operands s1 = rest /\ x_vm s1 = x_vm s).
  { intro f. destruct (step_call f p fr s bs m args rest C L D O La) as (fr' & c & s1 & H1 & H2 & H3 & H4 & H5 & _).
    exists fr', c, s1. auto. }
  destruct H as [f fr s w s' E|f fr s v s' E|f fr s fr' s' t e E _|f fr s m' c r fr' s1 t1 v s2 t2 e E Hc Hr
                |f fr s m' c r fr' s1 t1 w s2 E Hc];
    destruct (S f) as (fr1 & c1 & s3 & E1 & F & P & O1 & A1); rewrite E in E1; try discriminate E1.
  - injection E1 as -> -> -> -> ->. exists fr1, c1, s3, t1. split; [exact P|]. split; [exact F|]. right.
    exists v, s2, t2. split; [exact Hc|]. split; [reflexivity|].
    destruct (proj2 (verified_ok p (x_vm s) T V) _ _ _ _ _ Hc Tm) as (_ & O2 & R2).
    { rewrite A1. split; [exact W|apply grows_refl]. }
    pose proof (results_unique _ _ _ _ R R2) as Hn. rewrite O2, O1 in Hr. destruct v; cbn in Hn, Hr; auto.
  - injection E1 as -> -> -> -> ->. exists fr1, c1, s3, t1. split; [exact P|]. split; [exact F|]. left. eauto.
Qed.

(** The same for [newobj]: the new object is pushed. *)
Theorem C50_newobj_partial : forall p T fr s t e bs m args rest,
  consistent p (x_vm s) -> verified (x_vm s) T -> T m -> results (x_vm s) m 0 -> mt_static m = false ->
  code_here fr (x73 :: bs) -> List.length bs = 4%nat -> denotes (x_vm s) (fr_assembly fr) (Z.to_N (number bs)) m ->
  x_operands s = rev args ++ rest -> List.length args = List.length (mt_params m) ->
  runs p fr s t e ->
  (exists w s', e = Failed w s' /\ t = [At fr s]) \/
  exists fr' c ob s1 t1, (forall i v, variable s1 c i v <-> nth_error (VObject ob :: args) (N.to_nat i) = Some v) /\
    frame_at fr fr' (fr_ip fr + 5) /\
    ((exists w s2, calls p m c s1 t1 (Failed w s2) /\ e = Failed w s2 /\ t = At fr s :: t1) \/
     (exists s2 t2, calls p m c s1 t1 (Done None s2) /\ t = At fr s :: t1 ++ t2 /\
        runs p fr' (with_operands s2 (VObject ob :: rest)) t2 e)).
Proof.
  intros p T fr s t e bs m args rest W V Tm R St C L D O La H.
  assert (S : forall f o s1, step f p fr s = Ok o s1 ->
    exists fr' c ob, o = OCall m c (Some (VObject ob)) fr' /\ frame_at fr fr' (fr_ip fr + 5) /\
    (forall i v, variable s1 c i v <-> nth_error (VObject ob :: args) (N.to_nat i) = Some v) /\
    x_operands s1 = rest /\ x_vm s1 = x_vm s).
  { intros f o s1 E. destruct (step_newobj f p fr s bs m args rest o s1 C L D St O La E) as (fr' & c & ob & H1 & H2 & H3 & H4 & H5 & _).
    exists fr', c, ob. auto. }
  destruct H as [f fr s w s' E|f fr s v s' E|f fr s fr' s' t e E _|f fr s m' c r fr' s1 t1 v s2 t2 e E Hc Hr
                |f fr s m' c r fr' s1 t1 w s2 E Hc]; [left; eauto|right..];
    destruct (S _ _ _ E) as (fr1 & c1 & ob & E1 & F & P & O1 & A1); try discriminate E1.
  - injection E1 as -> -> -> ->. exists fr1, c1, ob, s1, t1. split; [exact P|]. split; [exact F|]. right.
    destruct (proj2 (verified_ok p (x_vm s) T V) _ _ _ _ _ Hc Tm) as (_ & O2 & R2).
    { rewrite A1. split; [exact W|apply grows_refl]. }
    pose proof (results_unique _ _ _ _ R R2) as Hn. rewrite O2, O1 in Hr. destruct v; [discriminate Hn|]. cbn in Hr. eauto 6.
  - injection E1 as -> -> -> ->. exists fr1, c1, ob, s1, t1. split; [exact P|]. split; [exact F|]. left. eauto.
Qed.

(** ** C63 *)

(** At every moment of a call of a method with consistent stacks, the operands that were there when it started
    are at the bottom of the stack; when it returns, they are all there is, and it has a result
    exactly if its return type is not System.Void. *)
Theorem C63_operands_kept : forall p T m c s t e,
  consistent p (x_vm s) -> verified (x_vm s) T -> T m -> calls p m c s t e ->
  (forall fr s', In (At fr s') t -> exists own, x_operands s' = own ++ x_operands s) /\
  (forall v s', e = Done v s' -> x_operands s' = x_operands s /\
     results (x_vm s) m (match v with Some _ => 1%nat | None => 0%nat end)).
Proof.
  intros p T m c s t e W V Tm H.
  destruct (proj2 (verified_ok p (x_vm s) T V) _ _ _ _ _ H Tm) as [F E]; [split; [exact W|apply grows_refl]|].
  rewrite Forall_forall in F. split.
  - intros fr s' I. exact (F _ I).
  - intros v s' ->. destruct E as [E1 E2]. split; [exact E1|]. destruct v; exact E2.
Qed.

(** Executions that the host starts: a void method has no result and every other method has one. *)
Theorem C63_result_of_execution : forall p fs paths s T fuel m params r params' s',
  history p fs paths s -> verified s T -> T m -> mt_static m = true ->
  execute fuel p m params s = Ok (r, params') s' ->
  (forall v, r = RValue v -> results s m 1) /\ (r = RVoid -> results s m 0).
Proof.
  intros p fs paths s T fuel m params r params' s' H V Tm St E. destruct (history_ok _ _ _ _ H) as (W & _).
  apply execute_executes in E. destruct E as [(X & _)|(_ & t & e & X & R & _)]; [congruence|].
  destruct (C63_operands_kept p T m CHost (new_machine s params) t e W V Tm X) as [_ K].
  destruct e as [v s1|w s1]; cbn in R.
  - destruct (K v s1 eq_refl) as [_ K2]. cbn [x_vm new_machine] in K2.
    destruct v as [[| | |]|]; try discriminate R; injection R as <- <-; split; try discriminate; auto.
  - injection R as <- <-. split; discriminate.
Qed.

(** ** Examples *)

(** Depths of methods of the example application, by address. *)
Definition depths (l : list (N * N)) (ip : N) : option nat :=
  match find (fun q => fst q =? ip) l with Some q => Some (N.to_nat (snd q)) | None => None end.
Definition ctor : method_info :=
  match nth_error (c_arena demo_lab) 2 with Some (Some ai) => nth 0 (a_method_defs ai) no_method | _ => no_method end.
Definition lab_methods (m : method_info) : Prop := In m [lab "Many"; lab "Minus"; lab "UseMinus"; lab "MakeX"; ctor].

Lemma bytes_at_sub code ip bs : ip <=? len code = true -> bytes_eqb (firstn (List.length bs) (skipn (N.to_nat ip) code)) bs = true ->
  bytes_at code ip bs.
Proof.
  intros H E. apply N.leb_le in H. apply bytes_eqb_spec in E.
  exists (firstn (N.to_nat ip) code), (skipn (List.length bs) (skipn (N.to_nat ip) code)).
  rewrite <- E at 1. rewrite firstn_skipn, firstn_skipn. split; [reflexivity|].
  unfold len in *. rewrite firstn_length. lia.
Qed.
Lemma depths_cases l (Q : N -> nat -> Prop) : Forall (fun q => Q (fst q) (N.to_nat (snd q))) l ->
  forall ip k, depths l ip = Some k -> Q ip k.
Proof.
  intros F ip k. unfold depths. destruct (find _ l) as [[i n]|] eqn:E; [|discriminate]. intro H. injection H as <-.
  destruct (find_some _ _ E) as [I Ei]. apply N.eqb_eq in Ei. cbn in Ei. subst i.
  rewrite Forall_forall in F. exact (F _ I).
Qed.
Ltac here := apply bytes_at_sub; vm_compute; reflexivity.
Ltac effective :=
  lazymatch goal with
  | |- agrees ?s ?T ?m ?a ?code ?d ?ip ?k =>
      let i := eval vm_compute in (N.to_nat ip) in
      let q := eval vm_compute in (find (fun y => bytes_eqb (fst (fst (fst y))) (firstn 1 (skipn i code))) effects) in
      lazymatch q with
      | Some (?op, ?n, ?po, ?pu) =>
          let operand := eval vm_compute in (firstn (N.to_nat n) (skipn (1 + i) code)) in
          apply (with_effect s T m a code d ip k op n po pu operand);
            [refine (proj1 (find_some (fun y => bytes_eqb (fst (fst (fst y))) op) effects (eq_refl : _ = Some (op, n, po, pu))))
            |here|reflexivity|vm_compute; repeat constructor|vm_compute; reflexivity]
      end
  end.
Ltac denote r := eexists; exists r; split; [vm_compute; reflexivity|]; split; [reflexivity|]; left; split; vm_compute; reflexivity.
Ltac method := vm_compute; tauto.

Example lab_verified : verified demo_lab lab_methods.
Proof.
  assert (Int : forall m, mt_return m = 10%nat -> results demo_lab m 1).
  { intros m E. eapply one_result; [rewrite E; vm_compute; reflexivity|vm_compute; discriminate]. }
  assert (Void : forall m, mt_return m = mt_return ctor -> results demo_lab m 0).
  { intros m E. eapply no_result; [rewrite E; vm_compute; reflexivity|vm_compute; reflexivity]. }
  intros m I. cbn [lab_methods In] in I.
  assert (Go : forall b ti l, mt_impl m = IIL b -> nth_error (c_types demo_lab) (mt_declaring m) = Some ti ->
             len (b_code b) <? 2 ^ 32 = true -> depths l 0 = Some 0%nat ->
             forallb (fun q => fst q <? len (b_code b)) l = true ->
             Forall (fun q => agrees demo_lab lab_methods m (ti_assembly ti) (b_code b) (depths l) (fst q) (N.to_nat (snd q))) l ->
             match mt_impl m with
             | IIL b => exists ti d, nth_error (c_types demo_lab) (mt_declaring m) = Some ti /\
                 balanced demo_lab lab_methods m (ti_assembly ti) (b_code b) d
             | _ => results demo_lab m 0
             end).
  { intros b ti l -> Et L D0 F A. exists ti, (depths l). split; [exact Et|]. apply N.ltb_lt in L. split; [exact L|]. split; [exact D0|].
    apply depths_cases. apply Forall_forall. intros q Iq. rewrite forallb_forall in F. rewrite Forall_forall in A.
    split; [apply N.ltb_lt; exact (F _ Iq)|exact (A _ Iq)]. }
  destruct I as [<-|[<-|[<-|[<-|[<-|[]]]]]].
  - eapply (Go _ _ [(0, 0); (1, 1); (2, 0); (3, 1); (4, 0); (6, 0); (7, 1); (8, 2); (13, 1); (14, 0); (15, 1); (16, 2); (17, 1);
                (18, 0); (19, 1); (20, 2); (22, 0); (23, 1)]); [vm_compute; reflexivity..|].
    repeat (apply Forall_cons; [cbn [fst snd]|]); [..|apply Forall_nil]; try effective.
    + eapply (with_jump _ _ _ _ _ _ _ _ x2b 1 [x0c] 18); [constructor|here|reflexivity|reflexivity|reflexivity].
    + eapply (with_call _ _ _ _ _ _ _ _ [x06; x00; x00; x06] (lab "Minus") 1);
        [here|reflexivity|denote 5|method|apply Int; vm_compute; reflexivity|vm_compute; repeat constructor|vm_compute; reflexivity].
    + eapply (with_branch _ _ _ _ _ _ _ _ x32 1 [xf0] _ 6); [constructor|here|reflexivity..|vm_compute; repeat constructor|reflexivity|reflexivity].
    + apply with_return; [here|apply Int; vm_compute; reflexivity].
  - eapply (Go _ _ [(0, 0); (1, 1); (2, 2); (3, 1)]); [vm_compute; reflexivity..|].
    repeat (apply Forall_cons; [cbn [fst snd]|]); [..|apply Forall_nil]; try effective.
    apply with_return; [here|apply Int; vm_compute; reflexivity].
  - eapply (Go _ _ [(0, 0); (1, 1); (2, 2); (3, 3); (8, 2); (9, 1)]); [vm_compute; reflexivity..|].
    repeat (apply Forall_cons; [cbn [fst snd]|]); [..|apply Forall_nil]; try effective.
    + eapply (with_call _ _ _ _ _ _ _ _ [x06; x00; x00; x06] (lab "Minus") 1);
        [here|reflexivity|denote 5|method|apply Int; vm_compute; reflexivity|vm_compute; repeat constructor|vm_compute; reflexivity].
    + apply with_return; [here|apply Int; vm_compute; reflexivity].
  - eapply (Go _ _ [(0, 0); (1, 1); (2, 2); (7, 1); (12, 1)]); [vm_compute; reflexivity..|].
    repeat (apply Forall_cons; [cbn [fst snd]|]); [..|apply Forall_nil]; try effective.
    + eapply (with_newobj _ _ _ _ _ _ _ _ [x01; x00; x00; x06] ctor);
        [here|reflexivity|denote 0|method|reflexivity|apply Void; vm_compute; reflexivity|vm_compute; repeat constructor|vm_compute; reflexivity].
    + apply with_return; [here|apply Int; vm_compute; reflexivity].
  - eapply (Go _ _ [(0, 0); (1, 1); (2, 2); (3, 3); (4, 2); (9, 0)]); [vm_compute; reflexivity..|].
    repeat (apply Forall_cons; [cbn [fst snd]|]); [..|apply Forall_nil]; try effective.
    apply with_return; [here|apply Void; vm_compute; reflexivity].
Qed.

(** A call and an object creation in the example application. *)
Example C50_arguments_ex p : exists fr s bs args rest, code_here fr (x28 :: bs) /\
  denotes (x_vm s) (fr_assembly fr) (Z.to_N (number bs)) (lab "Minus") /\
  x_operands s = rev args ++ rest /\ args = ints [5; 3]%Z /\ rest = ints [7%Z] /\
  List.length args = arguments (lab "Minus") /\ consistent p (x_vm s) /\ results (x_vm s) (lab "Minus") 1 /\
  lab_methods (lab "Minus").
Proof.
  exists (mkFrame (lab "UseMinus") 2%nat (match mt_impl (lab "UseMinus") with IIL b => b_code b | _ => [] end) 3 (CFrames 0 0 0) CHost).
  exists (mkMachine demo_lab (mkHeap 0 1024 []) (mkFrames 0 64 []) 0 (ints [3; 5; 7]%Z) []).
  exists [x06; x00; x00; x06], (ints [5; 3]%Z), (ints [7%Z]).
  split; [exists [x1d; x02; x17], [x5a; x2a]; vm_compute; auto|]. split; [denote 5|].
  split; [reflexivity|]. split; [reflexivity|]. split; [reflexivity|]. split; [vm_compute; reflexivity|].
  split; [exact (proj1 (history_ok _ _ _ _ (demo_lab_history p)))|]. split; [|method].
  eapply one_result; [vm_compute; reflexivity|vm_compute; discriminate].
Qed.
Example C50_constructor_ex : exists fr s bs, code_here fr (x73 :: bs) /\
  denotes (x_vm s) (fr_assembly fr) (Z.to_N (number bs)) ctor /\ mt_static ctor = false /\
  List.length (x_operands s) = List.length (mt_params ctor) /\
  forall p, exists o s', step 100 p fr s = Ok o s'.
Proof.
  exists (mkFrame (lab "MakeX") 2%nat (match mt_impl (lab "MakeX") with IIL b => b_code b | _ => [] end) 2 (CFrames 0 0 0) CHost).
  exists (mkMachine demo_lab (mkHeap 0 1024 []) (mkFrames 0 64 []) 0 (ints [3; 5]%Z) []).
  exists [x01; x00; x00; x06].
  split; [exists [x02; x03], [x7b; x01; x00; x00; x04; x2a]; vm_compute; auto|]. split; [denote 0|].
  split; [reflexivity|]. split; [vm_compute; reflexivity|]. intros []; vm_compute; eauto.
Qed.
Example C63_ex p : exists t e, executes p (lab "Many") (ints [5%Z]) demo_lab t e /\ verified demo_lab lab_methods /\
  lab_methods (lab "Many") /\ reported e = Some (RValue (VInt I32 (-10)), ints [5%Z]).
Proof.
  assert (E : execute 200 p (lab "Many") (ints [5%Z]) demo_lab = Ok (RValue (VInt I32 (-10)), ints [5%Z]) demo_lab)
    by (destruct p; vm_compute; reflexivity).
  apply execute_executes in E. destruct E as [(X & _)|(_ & t & e & H & R & _)]; [discriminate X|].
  exists t, e. split; [exact H|]. split; [exact lab_verified|]. split; [method|exact R].
Qed.

Print Assumptions C50_arguments.
Print Assumptions C50_constructor_arguments.
Print Assumptions C50_result_refuted.
Print Assumptions C50_call_partial.
Print Assumptions C50_newobj_partial.
Print Assumptions C63_operands_kept.
Print Assumptions C63_result_of_execution.

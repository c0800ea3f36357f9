(** Undefined behaviour: theorems about every execution, finished or not. *)
From Coq Require Import NArith ZArith Arith Lia String List Bool.
From Coq.Strings Require Import Byte.
From Verif Require Import Base BaseFacts ParseSpec Metadata Utf Runtime Value Opcodes Gc Interp SpecBytes SpecExec SpecFrames SpecStack SpecRuntime SpecTypes SpecHeap
  SpecHistory SpecSafety RuntimeInv InterpFacts InterpInv FrameFacts VmFacts HeapFacts FieldFacts CallFacts TraceFacts TraceProps PropsHeap SafetyFacts SafetyOps SafetyRuns
  SafetyCheck DemoStates DemoRuns.
Import ListNotations.
Open Scope N_scope.

(** ** C73: executing a method has no undefined behaviour *)

(** It may have: a method of a loaded assembly, given numbers, stores an int into a field of type short. *)
Theorem C73_safe_refuted : forall p, exists s m params w, history p no_files [] s /\ vectors s /\ mt_static m = true /\
  (forall o, ~ In (VObject o) params) /\ execute 100 p m params s = Ub w.
Proof.
  intro p. exists demo_lab, (lab "Narrow"), (ints [5; 6]%Z). eexists. split; [apply demo_lab_history|]. split.
  - intros a ai E. do 3 (destruct a as [|a]; [injection E as <-; vm_compute; auto 10|]). destruct a; discriminate E.
  - split; [reflexivity|]. split; [|destruct p; vm_compute; reflexivity]. intros o [X|[X|[]]]; discriminate X.
Qed.

(** It has none as long as no hazard is met.  What remains is the result: if it is an object, the data is read
    from a heap that is gone (C62). *)
Theorem C73_safe_partial : forall p fs paths s m params, history p fs paths s -> vectors s ->
  (forall o, ~ In (VObject o) params) ->
  (forall x, reaches p (start m params s) x -> ~ hazard p x) ->
  forall fuel w, execute fuel p m params s = Ub w ->
  exists t o s', executes p m params s t (Done (Some (VObject o)) s').
Proof.
  intros p fs paths s m params H V Np Cl fuel w E. unfold execute in E. destruct (mt_static m) eqn:St; cbn [negb] in E.
  2:{ destruct (the_type (mt_declaring m) s); discriminate E. }
  assert (A : After (old := []) p [] (new_machine s params)).
  { split; [split; [exact (history_ready _ _ _ _ H)|exact V]|]. intros _. split; [reflexivity|]. split; [reflexivity|].
    exists []. split; [reflexivity|]. split; [constructor|]. split; [intros o Ho; destruct (Np o); exact Ho|apply ages_not]. }
  pose proof (invoke_safe p fuel (run_safe p fuel) m CHost [] (new_machine s params) A Logic.I (conj eq_refl eq_refl) Cl) as Sf.
  destruct (invoke (run fuel p) m CHost (new_machine s params)) as [v s1|e s1|w1|w1|] eqn:Ei; try discriminate E; [|destruct Sf].
  destruct v as [[| | |o]|]; try discriminate E.
  destruct (invoke_calls p fuel (run_runs p fuel) m CHost _ (Done (Some (VObject o)) s1) Ei) as [t Ht]. exists t, o, s1. exact Ht.
Qed.

(** In particular, no amount of steps leads to undefined behaviour if the method returns a number or nothing. *)
Theorem C73_numbers_partial : forall p fs paths s m params, history p fs paths s -> vectors s ->
  (forall o, ~ In (VObject o) params) ->
  (forall x, reaches p (start m params s) x -> ~ hazard p x) ->
  (forall t o s', ~ executes p m params s t (Done (Some (VObject o)) s')) ->
  forall fuel w, execute fuel p m params s <> Ub w.
Proof.
  intros p fs paths s m params H V Np Cl No fuel w E. destruct (C73_safe_partial _ _ _ _ _ _ H V Np Cl _ _ E) as (t & o & s' & X).
  exact (No _ _ _ X).
Qed.

(** The hazards are real: each of these executions starts with numbers, and each has undefined behaviour. *)
Theorem C73_hazards_refuted : forall p, exists s, history p no_files [] s /\
  (** more than 64 variables, in a loop and in a recursion *)
  (exists w, execute 1000 p (lab "Many") (ints [40%Z]) s = Ub w) /\
  (exists w, execute 1000 p (lab "Deep") (ints [66%Z]) s = Ub w) /\
  (** more than 1024 bytes of objects *)
  (exists w, execute 4000 p (lab "Grow") (ints [1000%Z]) s = Ub w) /\
  (** a number wider than its field *)
  (exists w, execute 100 p (lab "Narrow") (ints [5; 6]%Z) s = Ub w) /\
  (** a result that is an object *)
  (exists w, execute 100 p (lab "Make") [] s = Ub w) /\
  (** a size that does not fit *)
  (p = Release -> exists w, execute 100 p (lab "Get") (ints [-1; 0]%Z) s = Ub w).
Proof.
  intro p. exists demo_lab. split; [apply demo_lab_history|].
  split; [eexists; destruct p; vm_compute; reflexivity|]. split; [eexists; destruct p; vm_compute; reflexivity|].
  split; [eexists; destruct p; vm_compute; reflexivity|]. split; [eexists; destruct p; vm_compute; reflexivity|].
  split; [eexists; destruct p; vm_compute; reflexivity|]. intros ->. eexists. vm_compute. reflexivity.
Qed.

(** ** Examples *)

Lemma lab_vectors : vectors demo_lab.
Proof. intros a ai E. do 3 (destruct a as [|a]; [injection E as <-; vm_compute; auto 10|]). destruct a; discriminate E. Qed.
Lemma lab_safe p n name params : survey (avoids demo_lab) n p (start (lab name) params demo_lab) = true ->
  forall x, reaches p (start (lab name) params demo_lab) x -> ~ hazard p x.
Proof.
  apply survey_safe; [exact (proj1 (history_ready _ _ _ _ (demo_lab_history Debug)))|exact (proj1 (history_ready _ _ _ _ (demo_lab_history p)))].
Qed.
Lemma ints_numbers l : forall o, ~ In (VObject o) (ints l).
Proof. intros o H. apply in_map_iff in H as (x & X & _). discriminate X. Qed.

(** A recursion of depth 30; an object with a constructor and a field; an array; text for the console. *)
Example C73_ex_deep p : forall x, reaches p (start (lab "Deep") (ints [30%Z]) demo_lab) x -> ~ hazard p x.
Proof. apply (lab_safe p 400). destruct p; vm_compute; reflexivity. Qed.
Example C73_ex_make p : forall x, reaches p (start (lab "MakeX") (ints [10; 3]%Z) demo_lab) x -> ~ hazard p x.
Proof. apply (lab_safe p 100). destruct p; vm_compute; reflexivity. Qed.
Example C73_ex_set p : forall x, reaches p (start (lab "Set") (ints [5; 2; 77; 2]%Z) demo_lab) x -> ~ hazard p x.
Proof. apply (lab_safe p 100). destruct p; vm_compute; reflexivity. Qed.
Example C73_ex_hello p : forall x, reaches p (start (lab "Hello") [] demo_lab) x -> ~ hazard p x.
Proof. apply (lab_safe p 100). destruct p; vm_compute; reflexivity. Qed.

Example C73_ex p fuel w : execute fuel p (lab "MakeX") (ints [10; 3]%Z) demo_lab <> Ub w.
Proof.
  apply (C73_numbers_partial p no_files [] demo_lab (lab "MakeX") (ints [10; 3]%Z) (demo_lab_history p) lab_vectors (ints_numbers _) (C73_ex_make p)).
  intros t o s' H. destruct (proj2 (runs_run p) _ _ _ _ _ H) as [f F]. cbn [ends_as] in F.
  assert (G : exists s2, invoke (run 100 p) (lab "MakeX") CHost (new_machine demo_lab (ints [10; 3]%Z)) = Ok (Some (VInt I32 7)) s2)
    by (eexists; destruct p; vm_compute; reflexivity). destruct G as [s2 G].
  pose proof (invoke_same _ _ _ _ _ _ _ _ F G ltac:(discriminate) ltac:(discriminate)) as X. discriminate X.
Qed.
(** The places of the last one: also inside the constructor. *)
Example C73_places p : exists fr s, reaches p (start (lab "MakeX") (ints [10; 3]%Z) demo_lab) (InFrame fr s) /\ instruction fr [x7d].
Proof.
  assert (C : exists fr0 s0 fr1 s1 fr2 s2 m c r fr3 s3 fr4 s4 fr5 s5 fr6 s6 fr7 s7 fr8 s8 b b1,
    mt_impl (lab "MakeX") = IIL b /\ entered (lab "MakeX") b CHost (new_machine demo_lab (ints [10; 3]%Z)) = Some (fr0, s0) /\
    step 20 p fr0 s0 = Ok (ONext fr1) s1 /\ step 20 p fr1 s1 = Ok (ONext fr2) s2 /\ step 20 p fr2 s2 = Ok (OCall m c r fr3) s3 /\
    mt_impl m = IIL b1 /\ entered m b1 c s3 = Some (fr4, s4) /\
    step 20 p fr4 s4 = Ok (ONext fr5) s5 /\ step 20 p fr5 s5 = Ok (ONext fr6) s6 /\ step 20 p fr6 s6 = Ok (ONext fr7) s7 /\
    step 20 p fr7 s7 = Ok (ONext fr8) s8 /\ nth_error (fr_code fr8) (N.to_nat (fr_ip fr8)) = Some x7d).
  { do 23 eexists. split; [reflexivity|].
    destruct p; (split; [vm_compute; reflexivity|]; split; [vm_compute; reflexivity|]; split; [vm_compute; reflexivity|]; split; [vm_compute; reflexivity|];
      split; [vm_compute; reflexivity|]; split; [vm_compute; reflexivity|]; split; [vm_compute; reflexivity|]; split; [vm_compute; reflexivity|];
      split; [vm_compute; reflexivity|]; split; [vm_compute; reflexivity|]; vm_compute; reflexivity). }
  destruct C as (fr0 & s0 & fr1 & s1 & fr2 & s2 & m & c & r & fr3 & s3 & fr4 & s4 & fr5 & s5 & fr6 & s6 & fr7 & s7 & fr8 & s8 & b & b1 & Ib & E0 & E1 & E2 & E3 & Ib1 & E4 & E5 & E6 & E7 & E8 & N8).
  exists fr8, s8. split.
  - eapply into_call; [exact Ib|apply enters_entered; exact E0|]. eapply past_instruction; [exact E1|]. eapply past_instruction; [exact E2|].
    eapply to_call; [exact E3|]. eapply into_call; [exact Ib1|apply enters_entered; exact E4|].
    do 4 (eapply past_instruction; [eassumption|]). apply reached.
  - apply nth_error_split in N8. destruct N8 as (l1 & l2 & E & L). exists l1, l2. split; [exact E|]. unfold len. rewrite L. now rewrite N2Nat.id.
Qed.

Print Assumptions C73_safe_refuted.
Print Assumptions C73_safe_partial.
Print Assumptions C73_numbers_partial.
Print Assumptions C73_hazards_refuted.

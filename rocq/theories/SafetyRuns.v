(** Executions without hazards: frames and calls. *)
From Coq Require Import NArith ZArith Arith Lia String List Bool.
From Coq.Strings Require Import Byte.
From Verif Require Import Base BaseFacts ParseSpec Metadata Utf Runtime Value Opcodes Gc Interp SpecBytes SpecExec SpecFrames SpecStack SpecRuntime SpecTypes SpecHeap
  SpecSafety RuntimeInv InterpFacts InterpInv FrameFacts VmFacts HeapFacts FieldFacts CallFacts TraceFacts TraceProps PropsHeap SafetyFacts SafetyOps.
Import ListNotations.
Open Scope N_scope.

Lemma in_firstn {A} (x : A) : forall l n, In x (firstn n l) -> In x l.
Proof. induction l as [|y l IH]; intros [|n]; cbn; try tauto. intros [X|X]; auto. right. exact (IH _ X). Qed.

Section Runs.
  Context {old : snapshot}.
  Variable p : profile.

  (** The storage of variables is still the first one. *)
  Definition steady (s : machine) : Prop := k_gen (x_frames s) = 0%nat /\ room s = 64.
  Definition clear (x : place) : Prop := forall y, reaches p x y -> ~ hazard p y.
  Definition opt (v : option value) : list value := match v with Some v => [v] | None => [] end.
  Definition ends (ex : list value) (r : res machine (option value)) : Prop :=
    match r with Ok v s' => After p (opt v ++ ex) s' /\ steady s' | Ub _ => False | _ => True end.

  Lemma steady_moves s s' x : steady s -> moves_show s s' -> state_of x = s' -> ~ hazard p x -> steady s'.
  Proof.
    intros [G R] [_ M] E Nh. destruct M as [[A B]|X]; [split; congruence|]. exfalso. apply Nh. apply storage_outgrown. rewrite E. congruence.
  Qed.
  Lemma clear_here x : clear x -> ~ hazard p x. Proof. intro C. apply C, reached. Qed.

  Lemma ready_output s text : ready p s -> ready p (set_output s (c_output s ++ text)).
  Proof. intros [W S]. split; [|exact S]. exact (proj1 (proj2 (set_output_prints p s text) W)). Qed.

  Lemma console_safe ex c s : After p ex s -> current s c -> steady s -> len (memory s) <= 1024 -> ends ex (console_write c s).
  Proof.
    intros A Cu St Lm. assert (Hi : Inv p c c ex s) by (destruct A as [V H]; exact (conj V (conj H (conj Cu Cu)))).
    pose proof (h_cell_get p c c ex c 0 (or_introl eq_refl) s Hi) as G. pose proof (console_write_run c s) as Cr.
    unfold console_write in *. unfold bind at 1 in Cr. unfold bind at 1. pose proof (cell_get_pure c 0 s) as Pu.
    destruct (cell_get c 0 s) as [v s1|e s1|w|w|]; try exact I; [|exact G]. subst s1.
    destruct v as [| | |o]; try exact I. destruct G as (_ & H & _).
    destruct (heap_at _ _ o H Lm (or_introl eq_refl)) as (before & b & after & M & O & Ge & Sh & _).
    pose proof (stored_at s o _ _ _ M O Ge) as Sto.
    assert (As : as_string o s = Ok (match b with x04 :: _ => true | _ => false end) s).
    { unfold as_string, bind. destruct Sh; rewrite (flags_at _ _ _ _ Sto); reflexivity. }
    unfold bind at 1 in Cr. unfold bind at 1. rewrite As in *.
    destruct Sh as [t ti n id fields E Id Sz Lf|t ti n length id eid l es Li E Id Sz El Lf|k id l cs Li El Lf]; try exact I.
    cbv iota beta in Cr |- *. cbn [app].
    assert (LI : len id = 4) by (unfold len; now rewrite Li). assert (LL : len l = 8) by (unfold len; now rewrite (proj1 El)).
    assert (Sd : exists units, string_data o s = Ok units s).
    { unfold string_data, bind. rewrite (load_stored s o 5 8 l); [| |exact LL].
      - destruct El as [_ El]. rewrite number_le_dec in El. apply N2Z.inj in El. rewrite El.
        rewrite (load_stored s o string_header _ cs); [eexists; reflexivity| |exact Lf].
        replace string_header with (0 + len ([x04] ++ id ++ l)) by (rewrite !len_app, LI, LL; reflexivity).
        apply stored_last. rewrite <- !app_assoc. exact Sto.
      - replace 5 with (0 + len ([x04] ++ id)) by (rewrite !len_app, LI; reflexivity).
        apply (stored_part s o 0 ([x04] ++ id) l cs). rewrite <- !app_assoc. exact Sto. }
    destruct Sd as [units Sd]. unfold bind at 1. rewrite Sd. destruct (utf16_decode units) as [text|]; [|exact I].
    cbn. destruct A as [[R V] Hh]. split; [|exact St]. split; [split; [now apply ready_output|exact V]|].
    eapply heap_same; [exact Hh|reflexivity|reflexivity|]. intros o'. exact (fun X => X).
  Qed.

  Lemma invoke_safe f : (forall fr ex s, Inv p (fr_locals fr) (fr_params fr) ex s -> steady s -> clear (InFrame fr s) -> ends ex (run f p fr s)) ->
    forall m c ex s, After p ex s -> current s c -> steady s -> clear (Calling m c s) -> ends ex (invoke (run f p) m c s).
  Proof.
    intros IH m c ex s A Cu St Cl. unfold invoke. destruct (mt_impl m) as [|b|i] eqn:Im; [exact I| |].
    - unfold bind at 1. destruct (on_vm (the_type (mt_declaring m)) s) as [ti s1|x s1|w|w|] eqn:Et; try exact I.
      2:{ exfalso. revert Et. unfold on_vm, the_type. destruct (nth_error _ _); discriminate. }
      apply the_type_on_vm in Et. destruct Et as [Et ->].
      unfold bind at 1. destruct (on_vm (the_assembly (ti_assembly ti)) s) as [ai s1|x s1|w|w|] eqn:Ea; try exact I.
      2:{ exfalso. revert Ea. clear. unfold on_vm, the_assembly.
          destruct (nth_error (c_arena (x_vm s)) (ti_assembly ti)) as [[y|]|]; discriminate. }
      apply the_assembly_on_vm in Ea. destruct Ea as [Ea ->].
      destruct (enters_run m b c s ti ai Et Ea) as (l & s1 & El & En).
      set (fr := mkFrame m (ti_assembly ti) (b_code b) 0 l c) in *.
      assert (Cl1 : clear (InFrame fr s1)) by (intros y Hy; apply Cl; eapply into_call; eauto).
      pose proof (clear_here _ Cl1) as Nh.
      destruct En as (ti' & ai' & gen & cap & _ & _ & Hg & Hf & Hs).
      assert (Hl : l = CFrames gen (in_use s) (len (b_locals b))) by (now injection Hf).
      assert (U1 : in_use s1 = in_use s + len (b_locals b)) by (rewrite Hs; unfold in_use; cbn; rewrite len_app, len_repeat; lia).
      assert (G1 : gen = k_gen (x_frames s) /\ cap = room s).
      { destruct (N.leb_spec (in_use s + len (b_locals b)) (room s)) as [_|X]; [exact Hg|]. exfalso. apply Nh. apply storage_outgrown. cbn.
        rewrite U1. destruct St as [_ R]. congruence. }
      destruct G1 as [-> ->].
      assert (Hi : Inv p (fr_locals fr) (fr_params fr) ex s1).
      { destruct A as [V H]. split; [now rewrite Hs|]. split; [|split].
        - rewrite Hs. eapply heap_same; [exact H|reflexivity|reflexivity|]. intro o. unfold values. cbn. rewrite !in_app_iff.
          intros [X|[X|[[X|X]|X]]]; auto. apply repeat_spec in X. discriminate X.
        - cbn. rewrite Hl. cbn. rewrite U1, Hs. cbn. split; [reflexivity|lia].
        - cbn. apply (current_later s); [exact Cu|rewrite Hs; reflexivity|rewrite U1; lia]. }
      assert (St1 : steady s1) by (rewrite Hs; exact St).
      specialize (IH fr ex s1 Hi St1 Cl1). unfold in_frame. unfold bind. rewrite El. fold fr.
      destruct (run f p fr s1) as [v s2|e s2|w|w|]; try exact I; [|exact IH].
      destruct IH as [[V2 H2] St2]. split; [|exact St2]. split; [exact V2|].
      eapply heap_same; [exact H2|reflexivity|reflexivity|]. intro o. unfold values. cbn. rewrite !in_app_iff.
      intros [X|[X|[X|X]]]; auto. right. right. left. revert X. apply in_firstn.
    - destruct i; try exact I. apply console_safe; auto. apply N.nlt_ge. intro X. apply (clear_here _ Cl). now apply heap_outgrown.
  Qed.

  Theorem run_safe : forall f fr ex s, Inv p (fr_locals fr) (fr_params fr) ex s -> steady s -> clear (InFrame fr s) -> ends ex (run f p fr s).
  Proof.
    induction f as [|f IH]; intros fr ex s Hi St Cl; [exact I|]. cbn [run]. unfold bind at 1.
    pose proof (step_safe p f ex fr s Hi (clear_here _ Cl)) as Sf. pose proof (step_moves f p fr s) as Mo.
    destruct (step f p fr s) as [o s1|e s1|w|w|] eqn:E; try exact I; [|exact Sf]. destruct Mo as [Mo Fo].
    destruct Hi as (_ & _ & Cl0 & Ca0). cbn in Sf. unfold Post in Sf. destruct o as [fr1|v|m c r fr1].
    - assert (Cl1 : clear (InFrame fr1 s1)) by (intros y Hy; apply Cl; eapply past_instruction; eauto).
      pose proof (steady_moves s s1 (InFrame fr1 s1) St Mo eq_refl (clear_here _ Cl1)) as St1.
      apply IH; auto. destruct Sf as [V H]. destruct Fo as (_ & _ & _ & -> & ->).
      split; [exact V|]. split; [exact H|]. destruct St as [G _], St1 as [G1 _], Mo as [U _].
      split; eapply current_later; eauto; congruence.
    - destruct (step_returns _ _ _ _ _ _ E) as (_ & l & Es & _). split; [exact Sf|]. rewrite Es. exact St.
    - destruct Fo as [Fo Cc].
      assert (Cl1 : clear (Calling m c s1)) by (intros y Hy; apply Cl; eapply to_call; eauto).
      pose proof (steady_moves s s1 (Calling m c s1) St Mo eq_refl (clear_here _ Cl1)) as St1.
      assert (A1 : After p (opt r ++ ex) s1) by (destruct r; exact Sf).
      pose proof (invoke_safe f IH m c _ s1 A1 Cc St1 Cl1) as Iv.
      unfold bind at 1. pose proof (invoke_restores (run f p) (run_advances p f) m c s1) as Re.
      destruct (invoke (run f p) m c s1) as [v s2|e s2|w|w|] eqn:Ei; try exact I; [|exact Iv]. destruct Iv as [A2 St2].
      destruct (invoke_calls p f (run_runs p f) m c s1 (Done v s2) Ei) as [t Ht].
      unfold bind. rewrite push_if_run. cbn beta iota. rewrite push_if_run.
      match goal with |- context [run f p fr1 ?x] => set (s4 := x) end.
      assert (E4 : s4 = with_operands s2 (then_push (then_push (x_operands s2) v) r)) by reflexivity.
      apply IH.
      + destruct A2 as [V2 H2]. split; [exact V2|]. split.
        * eapply heap_same; [exact H2|reflexivity|reflexivity|]. intro o. rewrite E4. unfold values, with_operands. cbn [x_operands x_frames x_host].
          rewrite !in_app_iff. destruct v, r; cbn; tauto.
        * destruct Fo as (_ & _ & _ & -> & ->). destruct Re as [Us _ _ _ _ _ _ _], Mo as [U1 _], St as [G _], St1 as [G1 _], St2 as [G2 _].
          split; (eapply current_later; [eassumption|cbn; congruence|unfold in_use in *; cbn; lia]).
      + exact St2.
      + intros y Hy. apply Cl. rewrite E4 in Hy. eapply past_call; eauto.
  Qed.
End Runs.

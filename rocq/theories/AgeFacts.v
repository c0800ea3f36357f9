(** What becomes of the blocks of the heap between two places of an execution without hazards. *)
From Coq Require Import NArith ZArith Arith Lia String List Bool.
From Coq.Strings Require Import Byte.
From Verif Require Import Base BaseFacts ParseSpec Metadata Utf Runtime Value Opcodes Gc Interp SpecBytes SpecExec SpecFrames SpecStack SpecRuntime SpecTypes SpecHeap
  SpecHistory SpecSafety SpecAges RuntimeInv InterpFacts InterpInv FrameFacts VmFacts HeapFacts FieldFacts CallFacts TraceFacts TraceProps PropsHeap SafetyFacts SafetyOps SafetyRuns.
Import ListNotations.
Open Scope N_scope.

Section Places.
  Variable p : profile.

  (** The invariant at a place, with the blocks as they were before. *)
  Definition Good {old : snapshot} (x : place) : Prop :=
    match x with
    | InFrame fr s => Inv p (fr_locals fr) (fr_params fr) [] s /\ steady s
    | Calling m c s => After p [] s /\ current s c /\ steady s
    end.

  Lemma after_drop {old : snapshot} ex s : After p ex s -> After p [] s.
  Proof.
    intros [V H]. split; [exact V|]. eapply heap_same; [exact H|reflexivity|reflexivity|]. intros o Ho. apply in_or_app. right. exact Ho.
  Qed.

  Theorem reaches_good {old : snapshot} x y : reaches p x y -> clear p x -> Good x -> Good y.
  Proof.
    intro R. induction R as [x|f fr s fr1 s1 x E R IH|f fr s m c r fr1 s1 x E R IH|m b c s fr s1 x Im En R IH|f fr s m c r fr1 s1 t v s2 x E C R IH];
      intros Cl Gd; [exact Gd| | | |].
    - destruct Gd as [Hi St]. pose proof (step_safe p f [] fr s Hi (clear_here p _ Cl)) as Sf. pose proof (step_moves f p fr s) as Mo.
      rewrite E in Sf, Mo. destruct Mo as [Mo Fo]. destruct Hi as (_ & _ & Cl0 & Ca0).
      assert (Cl1 : clear p (InFrame fr1 s1)) by (intros y Hy; apply Cl; eapply past_instruction; eauto).
      pose proof (steady_moves p s s1 (InFrame fr1 s1) St Mo eq_refl (clear_here p _ Cl1)) as St1.
      apply IH; [exact Cl1|]. split; [|exact St1]. destruct Sf as [V H]. destruct Fo as (_ & _ & _ & -> & ->).
      split; [exact V|]. split; [exact H|]. destruct St as [G _], St1 as [G1 _], Mo as [U _].
      split; eapply current_later; eauto; congruence.
    - destruct Gd as [Hi St]. pose proof (step_safe p f [] fr s Hi (clear_here p _ Cl)) as Sf. pose proof (step_moves f p fr s) as Mo.
      rewrite E in Sf, Mo. destruct Mo as [Mo [Fo Cc]].
      assert (Cl1 : clear p (Calling m c s1)) by (intros y Hy; apply Cl; eapply to_call; eauto).
      pose proof (steady_moves p s s1 (Calling m c s1) St Mo eq_refl (clear_here p _ Cl1)) as St1.
      apply IH; [exact Cl1|]. split; [|auto]. exact (after_drop _ _ Sf).
    - destruct Gd as (A & Cu & St).
      assert (Cl1 : clear p (InFrame fr s1)) by (intros y Hy; apply Cl; eapply into_call; eauto).
      pose proof (clear_here p _ Cl1) as Nh. apply IH; [exact Cl1|].
      destruct En as (ti & ai & gen & cap & _ & _ & Hg & Hf & Hs).
      assert (U1 : in_use s1 = in_use s + len (b_locals b)) by (rewrite Hs; unfold in_use; cbn; rewrite len_app, len_repeat; lia).
      assert (G1 : gen = k_gen (x_frames s) /\ cap = room s).
      { destruct (N.leb_spec (in_use s + len (b_locals b)) (room s)) as [_|X]; [exact Hg|]. exfalso. apply Nh. apply storage_outgrown. cbn.
        rewrite U1. destruct St as [_ Ro]. congruence. }
      destruct G1 as [-> ->]. split; [|rewrite Hs; exact St].
      destruct A as [V H]. split; [now rewrite Hs|]. split; [|split].
      + rewrite Hs. eapply heap_same; [exact H|reflexivity|reflexivity|]. intro o. unfold values. cbn. rewrite !in_app_iff.
        intros [X|[[X|X]|X]]; auto. apply repeat_spec in X. discriminate X.
      + rewrite Hf. cbn. rewrite U1, Hs. cbn. split; [reflexivity|lia].
      + rewrite Hf. cbn. apply (current_later s); [exact Cu|rewrite Hs; reflexivity|rewrite U1; lia].
    - destruct Gd as [Hi St]. pose proof (step_safe p f [] fr s Hi (clear_here p _ Cl)) as Sf. pose proof (step_moves f p fr s) as Mo.
      rewrite E in Sf, Mo. destruct Mo as [Mo [Fo Cc]]. destruct Hi as (_ & _ & Cl0 & Ca0).
      assert (Cl1 : clear p (Calling m c s1)) by (intros y Hy; apply Cl; eapply to_call; eauto).
      pose proof (steady_moves p s s1 (Calling m c s1) St Mo eq_refl (clear_here p _ Cl1)) as St1.
      assert (A1 : After p (opt r ++ []) s1) by (destruct r; exact Sf).
      destruct (proj2 (runs_run p) _ _ _ _ _ C) as [g Eg]. cbn [ends_as] in Eg.
      pose proof (invoke_safe p g (run_safe p g) m c _ s1 A1 Cc St1 Cl1) as Iv. rewrite Eg in Iv. destruct Iv as [A2 St2].
      pose proof (calls_restores _ _ _ _ _ _ C) as Re. cbn [final] in Re.
      apply IH; [intros y Hy; apply Cl; eapply past_call; eauto|]. split; [|exact St2].
      destruct A2 as [V2 H2]. split; [exact V2|]. split.
      + eapply heap_same; [exact H2|reflexivity|reflexivity|]. intro o. unfold values, with_operands. cbn [x_operands x_frames x_host].
        rewrite !in_app_iff. destruct v, r; cbn; tauto.
      + destruct Fo as (_ & _ & _ & -> & ->). destruct Re as [Us _ _ _ _ _ _ _], Mo as [U1 _], St as [G _], St1 as [G1 _], St2 as [G2 _].
        split; (eapply current_later; [eassumption|cbn; congruence|unfold in_use in *; cbn; lia]).
  Qed.

  (** The types between two places. *)
  Lemma reaches_grows x y : reaches p x y -> consistent p (x_vm (state_of x)) ->
    consistent p (x_vm (state_of y)) /\ grows (x_vm (state_of x)) (x_vm (state_of y)).
  Proof.
    assert (T : forall t a b c, prints p t a b -> (consistent p b -> consistent p c /\ grows b c) -> consistent p a -> consistent p c /\ grows a c).
    { intros t a b c [_ Q] H W. destruct (Q W) as [W1 G1]. destruct (H W1) as [W2 G2]. eauto using grows_trans. }
    intro R. induction R as [x|f fr s fr1 s1 x E R IH|f fr s m c r fr1 s1 x E R IH|m b c s fr s1 x Im En R IH|f fr s m c r fr1 s1 t v s2 x E C R IH];
      cbn [state_of] in *.
    - intro W. split; [exact W|]. apply grows_refl.
    - pose proof (step_quiet f p fr s) as Q. rewrite E in Q. apply quiet_prints in Q. exact (T _ _ _ _ Q IH).
    - pose proof (step_quiet f p fr s) as Q. rewrite E in Q. apply quiet_prints in Q. exact (T _ _ _ _ Q IH).
    - apply enters_vm in En. now rewrite <- En.
    - pose proof (step_quiet f p fr s) as Q. rewrite E in Q. apply quiet_prints in Q.
      exact (T _ _ _ _ Q (T _ _ _ _ (proj2 (runs_prints p) _ _ _ _ _ C) IH)).
  Qed.

  (** The blocks at a place. *)
  Lemma good_blocks {old : snapshot} x : Good x -> ~ hazard p x ->
    exists bl, memory (state_of x) = concat bl /\ h_gen (x_heap (state_of x)) = 0%nat /\ Forall (shape (c_types (x_vm (state_of x)))) bl /\
      (forall o, at_hand (state_of x) o -> points bl o) /\ ages old bl /\
      forall old' : snapshot, ages old' bl -> Good (old := old') x.
  Proof.
    intros G Nh. assert (Lm : len (memory (state_of x)) <= 1024) by (apply N.nlt_ge; intro X; apply Nh; now apply heap_outgrown).
    destruct x as [fr s|m c s]; cbn [state_of] in *.
    - destruct G as ((V & H & Cl & Ca) & St). destruct (H Lm) as (Ge & Ce & bl & M & F & Pt & Ag). exists bl.
      split; [exact M|]. split; [exact Ge|]. split; [exact F|]. split; [|split; [exact Ag|]].
      + intros o Ho. apply Pt. cbn [app]. unfold values. rewrite !in_app_iff. unfold at_hand in Ho. tauto.
      + intros old' A'. split; [|exact St]. split; [exact V|]. split; [|auto]. intros _. split; [exact Ge|]. split; [exact Ce|]. exists bl. auto.
    - destruct G as ((V & H) & Cu & St). destruct (H Lm) as (Ge & Ce & bl & M & F & Pt & Ag). exists bl.
      split; [exact M|]. split; [exact Ge|]. split; [exact F|]. split; [|split; [exact Ag|]].
      + intros o Ho. apply Pt. cbn [app]. unfold values. rewrite !in_app_iff. unfold at_hand in Ho. tauto.
      + intros old' A'. split; [|auto]. split; [exact V|]. intros _. split; [exact Ge|]. split; [exact Ce|]. exists bl. auto.
  Qed.

  (** Between two places. *)
  Theorem blocks_age fs paths s m params x y : history p fs paths s -> vectors s -> sheltered p m params s ->
    reaches p (start m params s) x -> reaches p x y ->
    exists bl bl', memory (state_of x) = concat bl /\ memory (state_of y) = concat bl' /\
      h_gen (x_heap (state_of x)) = 0%nat /\ h_gen (x_heap (state_of y)) = 0%nat /\
      Forall (shape (c_types (x_vm (state_of x)))) bl /\ (forall o, at_hand (state_of x) o -> points bl o) /\ ages bl bl' /\
      exists more, c_types (x_vm (state_of y)) = c_types (x_vm (state_of x)) ++ more.
  Proof.
    intros H V [Np Cl] Rx Ry.
    assert (G0 : Good (old := []) (start m params s)).
    { split; [|split; [exact Logic.I|split; reflexivity]].
      split; [split; [exact (history_ready _ _ _ _ H)|exact V]|]. intros _. split; [reflexivity|]. split; [reflexivity|].
      exists []. split; [reflexivity|]. split; [constructor|]. split; [intros o Ho; destruct (Np o); exact Ho|apply ages_not]. }
    pose proof (reaches_good _ _ Rx Cl G0) as Gx.
    destruct (good_blocks x Gx (Cl _ Rx)) as (bl & Mx & Gex & Fx & Px & _ & New).
    assert (Clx : clear p x).
    { intros z Hz. apply Cl. revert Rx Hz. clear. intros Rx Hz. induction Rx; eauto using reaches. }
    pose proof (reaches_good (old := bl) _ _ Ry Clx (New bl (ages_not bl))) as Gy.
    destruct (good_blocks y Gy (Clx _ Ry)) as (bl' & My & Gey & _ & _ & Ag & _).
    exists bl, bl'. split; [exact Mx|]. split; [exact My|]. split; [exact Gex|]. split; [exact Gey|]. split; [exact Fx|]. split; [exact Px|]. split; [exact Ag|].
    destruct (history_ready _ _ _ _ H) as [W _].
    destruct (reaches_grows _ _ Rx W) as [Wx _]. destruct (reaches_grows _ _ Ry Wx) as [_ [_ _ _ _ T _]]. exact T.
  Qed.
End Places.

(** The block of a reference, later. *)
Lemma ages_at old bl i b : ages old bl -> nth_error old i = Some b ->
  exists b', nth_error bl i = Some b' /\ aged b b' /\ len (concat (firstn i bl)) = len (concat (firstn i old)).
Proof.
  intros (l & new & -> & F) E. revert i E. induction F as [|o0 l0 old l A0 F IH]; intros i E; [destruct i; discriminate|].
  destruct i as [|i]; cbn [nth_error app firstn concat] in *.
  - injection E as ->. exists l0. auto.
  - destruct (IH i E) as (b' & E' & A' & L'). exists b'. split; [exact E'|]. split; [exact A'|].
    rewrite !len_app, L', (aged_len _ _ A0). reflexivity.
Qed.
Lemma block_at s bl o : memory s = concat bl -> h_gen (x_heap s) = 0%nat -> forall i b, nth_error bl i = Some b ->
  o_gen o = 0%nat -> o_off o = len (concat (firstn i bl)) -> stored s o 0 b.
Proof.
  intros M G i b E Go O. split; [congruence|].
  destruct (concat_at bl i) as (b' & E' & Ec); [apply nth_error_Some; congruence|]. assert (b' = b) as -> by congruence.
  exists (concat (firstn i bl)), (concat (skipn (S i) bl)). split; [congruence|]. rewrite O. lia.
Qed.

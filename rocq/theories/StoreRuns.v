(** What executions do to the bytes of the heap. *)
From Coq Require Import NArith ZArith Arith Lia String List Bool.
From Coq.Strings Require Import Byte.
From Verif Require Import Base BaseFacts ParseSpec Metadata Utf Runtime Value Opcodes Gc Interp SpecBytes SpecExec SpecFrames SpecStack SpecRuntime SpecTypes SpecHeap
  SpecHistory SpecSafety SpecAges SpecStores RuntimeInv InterpFacts InterpInv FrameFacts VmFacts HeapFacts FieldFacts CallFacts TraceFacts TraceProps PropsHeap OffsetFacts ReaderProofs
  SafetyFacts SafetyOps SafetyRuns AgeFacts StoreFacts.
Import ListNotations.
Open Scope N_scope.

(** ** Ways *)

Lemma trace_reaches p :
  (forall fr s t e, runs p fr s t e -> forall fr' s', In (At fr' s') t -> reaches p (InFrame fr s) (InFrame fr' s')) /\
  (forall m c s t e, calls p m c s t e -> forall fr' s', In (At fr' s') t -> reaches p (Calling m c s) (InFrame fr' s')).
Proof.
  apply (traces_ind p (fun fr s t e _ => forall fr' s', In (At fr' s') t -> reaches p (InFrame fr s) (InFrame fr' s'))
                      (fun m c s t e _ => forall fr' s', In (At fr' s') t -> reaches p (Calling m c s) (InFrame fr' s'))).
  - intros f fr s e s' E fr' s0 [X|[]]. injection X as <- <-. apply reached.
  - intros f fr s v s' E fr' s0 [X|[]]. injection X as <- <-. apply reached.
  - intros f fr s fr' s' t e E _ IH fr0 s0 [X|X]; [injection X as <- <-; apply reached|]. eapply past_instruction; eauto.
  - intros f fr s g c r fr' s1 t1 v s2 t2 e E C IH1 _ IH2 fr0 s0 [X|X]; [injection X as <- <-; apply reached|].
    apply in_app_or in X as [X|X]; [eapply to_call; eauto|eapply past_call; eauto].
  - intros f fr s g c r fr' s1 t1 e s2 E _ IH1 fr0 s0 [X|X]; [injection X as <- <-; apply reached|]. eapply to_call; eauto.
  - intros g b c s fr s1 t v s2 s3 Ib En _ IH L fr0 s0 X. eapply into_call; eauto.
  - intros g b c s fr s1 t v s2 s3 Ib En _ IH L fr0 s0 X. eapply into_call; eauto.
  - intros g c s o text r s' _ Hv _ E fr0 s0 [X|[]]. discriminate X.
Qed.
Lemma travels_reaches p x t y : travels p x t y -> reaches p x y.
Proof. induction 1; eauto using reaches. Qed.
Lemma travels_moment p x t y : travels p x t y -> forall fr s, In (At fr s) t -> reaches p x (InFrame fr s).
Proof.
  induction 1 as [x|f fr s fr1 s1 t x E R IH|f fr s m c r fr1 s1 t x E R IH|m b c s fr s1 t x Im En R IH|f fr s m c r fr1 s1 t1 v s2 t2 x E C R IH];
    intros fr0 s0 X.
  - destruct X.
  - destruct X as [X|X]; [injection X as <- <-; apply reached|]. eapply past_instruction; eauto.
  - destruct X as [X|X]; [injection X as <- <-; apply reached|]. eapply to_call; eauto.
  - eapply into_call; eauto.
  - destruct X as [X|X]; [injection X as <- <-; apply reached|]. apply in_app_or in X as [X|X].
    + eapply to_call; [exact E|]. eapply (proj2 (trace_reaches p)); eauto.
    + eapply past_call; eauto.
Qed.
Lemma reaches_trans p x y z : reaches p x y -> reaches p y z -> reaches p x z.
Proof. intros Rx Hz. induction Rx; eauto using reaches. Qed.

(** ** Bytes that are not stored to *)

Definition missed (t : list moment) (i : nat) : Prop :=
  forall fr s o d k, In (At fr s) t -> stores fr s o d k -> checked fr s o d k -> ~ (o_off o + d <= N.of_nat i < o_off o + d + k).
Definition same_at (i : nat) (s s' : machine) : Prop := (i < List.length (memory s))%nat ->
  (i < List.length (memory s'))%nat /\ nth_error (memory s') i = nth_error (memory s) i.

Lemma same_trans i a b c : same_at i a b -> same_at i b c -> same_at i a c.
Proof. intros H K L. destruct (H L) as [L1 E1]. destruct (K L1) as [L2 E2]. split; [exact L2|congruence]. Qed.
Lemma same_heap i a b : x_heap b = x_heap a -> same_at i a b.
Proof. intros E L. unfold memory in *. rewrite E. auto. Qed.
Lemma changes_same fr s s' t i : changes fr s s' -> missed t i -> In (At fr s) t -> same_at i s s'.
Proof.
  intros [[more E]|(o & d & k & St & B & L & Ck & C)] M X Li.
  - rewrite E, app_length, nth_error_app1 by exact Li. split; [lia|reflexivity].
  - split; [unfold len in L; lia|]. apply C. specialize (M _ _ _ _ _ X St Ck). lia.
Qed.
Lemma vectors_same a b : c_arena b = c_arena a -> vectors a -> vectors b.
Proof. unfold vectors. now intros ->. Qed.
Lemma step_arena_ok f p fr s o s' : step f p fr s = Ok o s' -> c_arena (x_vm s') = c_arena (x_vm s).
Proof. intro E. pose proof (step_arena f p fr s) as Q. now rewrite E in Q. Qed.

(** What holds from state to state, for the instructions of [t0]. *)
Section Relation.
  Variables (p : profile) (R : machine -> machine -> Prop) (t0 : list moment).
  Hypothesis R_heap : forall a b, x_heap b = x_heap a -> R a b.
  Hypothesis R_trans : forall a b c, R a b -> R b c -> R a c.
  Hypothesis R_changes : forall fr s s', In (At fr s) t0 -> changes fr s s' -> R s s'.

  Lemma trace_rel :
    (forall fr s t e, runs p fr s t e -> forall v s', e = Done v s' -> vectors (x_vm s) -> incl t t0 -> R s s') /\
    (forall m c s t e, calls p m c s t e -> forall v s', e = Done v s' -> vectors (x_vm s) -> incl t t0 -> R s s').
  Proof.
    apply (traces_ind p (fun fr s t e _ => forall v s', e = Done v s' -> vectors (x_vm s) -> incl t t0 -> R s s')
                        (fun m c s t e _ => forall v s', e = Done v s' -> vectors (x_vm s) -> incl t t0 -> R s s')).
    - intros; discriminate.
    - intros f fr s v s' E v0 s0 X V M. injection X as <- <-. apply (R_changes fr); [apply M; now left|]. eapply step_changes; eauto.
    - intros f fr s fr' s' t e E _ IH v0 s0 X V M. apply incl_cons_inv in M as [M0 M]. apply (R_trans _ s').
      + apply (R_changes fr); [exact M0|]. eapply step_changes; eauto.
      + apply (IH _ _ X); [exact (vectors_same _ _ (step_arena_ok _ _ _ _ _ _ E) V)|exact M].
    - intros f fr s g c r fr' s1 t1 v s2 t2 e E C IH1 _ IH2 v0 s0 X V M. pose proof (vectors_same _ _ (step_arena_ok _ _ _ _ _ _ E) V) as V1.
      apply incl_cons_inv in M as [M0 M]. apply incl_app_inv in M as [M1 M2]. apply (R_trans _ s1).
      { apply (R_changes fr); [exact M0|]. eapply step_changes; eauto. }
      apply (R_trans _ s2); [exact (IH1 _ _ eq_refl V1 M1)|]. eapply R_trans; [|apply (IH2 _ _ X)]; [now apply R_heap| |exact M2].
      exact (vectors_same _ _ (proj2 (runs_arena p) _ _ _ _ _ C) V1).
    - intros; discriminate.
    - intros g b c s fr s1 t v s2 s3 _ En _ IH L v0 s0 X V M. injection X as <- <-.
      assert (H1 : x_heap s1 = x_heap s) by (destruct En as (? & ? & ? & ? & _ & _ & _ & _ & ->); reflexivity).
      assert (H3 : x_heap s3 = x_heap s2) by (rewrite L; reflexivity).
      apply (R_trans _ s1); [now apply R_heap|]. apply (R_trans _ s2); [|now apply R_heap].
      apply (IH _ _ eq_refl); [|exact M]. now rewrite (enters_vm _ _ _ _ _ _ En).
    - intros; discriminate.
    - intros g c s o text r s' _ Hv _ E v0 s0 X V M. injection X as <- <-. pose proof (console_write_run c s) as H. rewrite E in H.
      destruct H as (_ & o' & units & text' & _ & _ & _ & _ & ->). now apply R_heap.
  Qed.

  Lemma travels_rel x t y : travels p x t y -> vectors (x_vm (state_of x)) -> incl t t0 -> R (state_of x) (state_of y).
  Proof.
    induction 1 as [x|f fr s fr1 s1 t x E W IH|f fr s m c r fr1 s1 t x E W IH|m b c s fr s1 t x Im En W IH|f fr s m c r fr1 s1 t1 v s2 t2 x E C W IH];
      intros V M; cbn [state_of] in *.
    - now apply R_heap.
    - apply incl_cons_inv in M as [M0 M]. apply (R_trans _ s1); [apply (R_changes fr); [exact M0|]; eapply step_changes; eauto|].
      apply IH; [exact (vectors_same _ _ (step_arena_ok _ _ _ _ _ _ E) V)|exact M].
    - apply incl_cons_inv in M as [M0 M]. apply (R_trans _ s1); [apply (R_changes fr); [exact M0|]; eapply step_changes; eauto|].
      apply IH; [exact (vectors_same _ _ (step_arena_ok _ _ _ _ _ _ E) V)|exact M].
    - assert (H1 : x_heap s1 = x_heap s) by (destruct En as (? & ? & ? & ? & _ & _ & _ & _ & ->); reflexivity).
      apply (R_trans _ s1); [now apply R_heap|]. apply IH; [|exact M]. now rewrite (enters_vm _ _ _ _ _ _ En).
    - pose proof (vectors_same _ _ (step_arena_ok _ _ _ _ _ _ E) V) as V1.
      apply incl_cons_inv in M as [M0 M]. apply incl_app_inv in M as [M1 M2]. apply (R_trans _ s1).
      { apply (R_changes fr); [exact M0|]. eapply step_changes; eauto. }
      apply (R_trans _ s2); [exact (proj2 trace_rel _ _ _ _ _ C _ _ eq_refl V1 M1)|].
      eapply R_trans; [|apply IH]; [now apply R_heap| |exact M2].
      exact (vectors_same _ _ (proj2 (runs_arena p) _ _ _ _ _ C) V1).
  Qed.
End Relation.

Lemma travels_same p x t y i : travels p x t y -> vectors (x_vm (state_of x)) -> missed t i -> same_at i (state_of x) (state_of y).
Proof.
  intros T V M. apply (travels_rel p (same_at i) t) with (t := t) (x := x) (y := y); [apply same_heap|apply same_trans| |exact T|exact V|apply incl_refl].
  intros fr s s' X C. exact (changes_same fr s s' t i C M X).
Qed.
Lemma travels_longer p x t y : travels p x t y -> vectors (x_vm (state_of x)) -> len (memory (state_of x)) <= len (memory (state_of y)).
Proof.
  intros T V. apply (travels_rel p (fun a b => len (memory a) <= len (memory b)) t) with (t := t) (x := x) (y := y); [| | |exact T|exact V|apply incl_refl].
  - intros a b E. unfold memory. rewrite E. lia.
  - intros a b c. lia.
  - intros fr s s' _ [[more ->]|(o & d & k & _ & _ & L & _)]; [rewrite len_app; lia|lia].
Qed.

(** Several bytes. *)
Lemma nth_error_same {A} : forall l l' : list A, (forall i, nth_error l i = nth_error l' i) -> l = l'.
Proof.
  induction l as [|a l IH]; intros [|b l'] H; [reflexivity|discriminate (H 0%nat)|discriminate (H 0%nat)|].
  f_equal; [specialize (H 0%nat); cbn in H; congruence|]. apply IH. intro i. exact (H (S i)).
Qed.
Lemma same_bytes (m m' : list byte) before bs after : m = before ++ bs ++ after ->
  (forall i, (List.length before <= i < List.length before + List.length bs)%nat -> nth_error m' i = nth_error m i) ->
  bs <> [] -> exists before' after', m' = before' ++ bs ++ after' /\ List.length before' = List.length before.
Proof.
  intros -> H N. set (a := List.length before) in *. set (n := List.length bs) in *.
  assert (Ln : (0 < n)%nat) by (destruct bs; [congruence|cbn in *; lia]).
  assert (La : (a + n <= List.length m')%nat).
  { assert (X : nth_error m' (a + n - 1) <> None); [|apply nth_error_Some in X; lia].
    rewrite H by lia. apply nth_error_Some. rewrite !app_length. fold a n. lia. }
  exists (firstn a m'), (skipn (a + n) m'). split; [|apply firstn_length_le; lia].
  apply nth_error_same. intro i.
  destruct (Nat.lt_ge_cases i a) as [X|X]; [|destruct (Nat.lt_ge_cases i (a + n)) as [Y|Y]].
  - rewrite nth_error_app1 by (rewrite firstn_length; lia). rewrite <- (firstn_skipn a m') at 1. rewrite nth_error_app1 by (rewrite firstn_length; lia). reflexivity.
  - rewrite H by lia. assert (Lf : List.length (firstn a m') = a) by (apply firstn_length_le; lia).
    rewrite (nth_error_app2 before) by (fold a; lia). rewrite (nth_error_app2 (firstn a m')) by lia.
    rewrite Lf. fold a. rewrite !(nth_error_app1 bs) by (fold n; lia). reflexivity.
  - rewrite app_assoc, nth_error_app2 by (rewrite app_length, firstn_length; fold n; lia).
    rewrite app_length, firstn_length, Nat.min_l by lia. fold n.
    rewrite <- (firstn_skipn (a + n) m') at 1. rewrite nth_error_app2 by (rewrite firstn_length; lia). f_equal. rewrite firstn_length. lia.
Qed.

(** ** Blocks *)

Section Blocks.
  Variable p : profile.

  Lemma blocks_then fs paths s m params x : history p fs paths s -> vectors s -> sheltered p m params s ->
    reaches p (start m params s) x ->
    exists bl, memory (state_of x) = concat bl /\ h_gen (x_heap (state_of x)) = 0%nat /\ Forall (shape (c_types (x_vm (state_of x)))) bl /\
      (forall o, at_hand (state_of x) o -> points bl o) /\ SpecHeap.ready p (x_vm (state_of x)) /\ vectors (x_vm (state_of x)) /\
      forall y, reaches p x y -> let s' := state_of y in
      exists bl', memory s' = concat bl' /\ h_gen (x_heap s') = 0%nat /\ Forall (shape (c_types (x_vm s'))) bl' /\
        (forall o, at_hand s' o -> points bl' o) /\ SpecHeap.ready p (x_vm s') /\ ages bl bl'.
  Proof.
    intros H V [Np Cl] Rx.
    assert (G0 : Good p (old := []) (start m params s)).
    { split; [|split; [exact Logic.I|split; reflexivity]].
      split; [split; [exact (history_ready _ _ _ _ H)|exact V]|]. intros _. split; [reflexivity|]. split; [reflexivity|].
      exists []. split; [reflexivity|]. split; [constructor|]. split; [intros o Ho; destruct (Np o); exact Ho|apply ages_not]. }
    assert (Vm : forall old y, @Good p old y -> vm_ok p (x_vm (state_of y))).
    { intros old [fr s'|g c s'] Gd; [exact (proj1 (proj1 Gd))|exact (proj1 (proj1 Gd))]. }
    pose proof (reaches_good p _ _ Rx Cl G0) as Gx.
    destruct (good_blocks p x Gx (Cl _ Rx)) as (bl & Mx & Gex & Fx & Px & _ & New).
    exists bl. split; [exact Mx|]. split; [exact Gex|]. split; [exact Fx|]. split; [exact Px|]. destruct (Vm _ _ Gx) as [Rd Vx].
    split; [exact Rd|]. split; [exact Vx|].
    assert (Clx : clear p x) by (intros z Hz; apply Cl; exact (reaches_trans _ _ _ _ Rx Hz)).
    intros y Ry. pose proof (reaches_good p (old := bl) _ _ Ry Clx (New bl (ages_not bl))) as Gy.
    destruct (good_blocks p _ Gy (Clx _ Ry)) as (bl' & My & Gey & Fy & Py & Ag & _).
    exists bl'. split; [exact My|]. split; [exact Gey|]. split; [exact Fy|]. split; [exact Py|]. split; [exact (proj1 (Vm _ _ Gy))|exact Ag].
  Qed.

  (** A store stays within the block of its reference. *)
  Lemma store_inside bl fr s o d k : memory s = concat bl -> h_gen (x_heap s) = 0%nat -> Forall (shape (c_types (x_vm s))) bl ->
    points bl o -> SpecHeap.ready p (x_vm s) -> ~ hazard p (InFrame fr s) -> stores fr s o d k -> checked fr s o d k ->
    exists j b, nth_error bl j = Some b /\ o_off o = len (concat (firstn j bl)) /\ d + k <= len b.
  Proof.
    intros M G F (Go & j & Hj & O) R Nh St (s0 & H0 & V0 & Ck). destruct (nth_error bl j) as [b|] eqn:E; [|apply nth_error_None in E; lia].
    exists j, b. split; [exact E|]. split; [exact O|].
    pose proof (block_at _ _ _ M G j b E Go O) as Sb.
    assert (Sb0 : stored s0 o 0 b) by (destruct Sb as (A & B); split; [congruence|unfold memory in *; rewrite H0; exact B]).
    assert (Lt : len (c_types (x_vm s)) <= 2 ^ 32) by (apply N.nlt_ge; intro X; apply Nh; now apply types_outnumber).
    rewrite Forall_forall in F. pose proof (F _ (nth_error_In _ _ E)) as Sh. clear F E.
    assert (Two : instruction fr [x7d] -> instruction fr [x9e] -> False).
    { unfold instruction. intros (x & y & A & L) (x' & y' & B & L'). rewrite A in B. apply split_same in B as [_ B]; [discriminate B|unfold len in *; lia]. }
    destruct Ck as [[I Ck]|(I & Ck & n & Sl & Le)].
    - unfold raw_object, bind in Ck.
      destruct Sh as [t ti n id fields E Id Sz Lf|t ti n length id eid l es Li E Id Sz El Lf|k0 id l cs Li El Lf];
        rewrite (flags_at _ _ _ _ Sb0) in Ck; [|discriminate|discriminate].
      assert (LI : len id = 4) by (unfold len; now rewrite (proj1 Id)).
      destruct St as [tok f v rest k It Lk Df Eo Wd|x i rest It Eo]; [|destruct (Two I It)].
      assert (Fit : f_offset f + k <= n).
      { apply N.nlt_ge. intro X. apply Nh. eapply stores_outside with (tok := tok); eauto.
        exists id, t, ti. split; [|auto]. rewrite app_assoc in Sb. exact (stored_first _ _ _ _ _ Sb). }
      rewrite !len_app, LI, Lf. change (len [x00]) with 1. lia.
    - unfold as_array, bind in Ck.
      destruct Sh as [t ti n0 id fields E Id Sz Lf|t ti n0 length id eid l es Li E Id Sz El Lf|k0 id l cs Li El Lf];
        rewrite (flags_at _ _ _ _ Sb0) in Ck; [discriminate| |discriminate].
      rewrite <- V0 in R, Lt, E, Sz.
      pose proof (i32_slice_run p s0 o id eid l es t ti n0 length R Lt Sb0 Li E Id Sz El Lf) as Q. rewrite Sl in Q. destruct Q as (_ & -> & ->).
      assert (LI : len id = 4) by (unfold len; now rewrite Li). assert (LE : len eid = 4) by (unfold len; now rewrite (proj1 Id)).
      assert (LL : len l = 8) by (unfold len; now rewrite (proj1 El)).
      rewrite !len_app, LI, LE, LL, Lf. change (len [x02]) with 1. lia.
  Qed.

  (** Blocks do not overlap. *)
  Lemma blocks_apart {A} (bl : list (list A)) i j b : nth_error bl i = Some b -> (i < j)%nat ->
    len (concat (firstn i bl)) + len b <= len (concat (firstn j bl)).
  Proof.
    intros E L. assert (K : firstn j bl = firstn i bl ++ b :: firstn (j - S i) (skipn (S i) bl)).
    { rewrite <- (firstn_skipn i bl) at 1. assert (Li : (i < List.length bl)%nat) by (apply nth_error_Some; congruence).
      rewrite firstn_app, firstn_firstn, firstn_length, Nat.min_r by lia. f_equal. rewrite Nat.min_l by lia.
      assert (S : skipn i bl = b :: skipn (S i) bl).
      { clear - E. revert bl E. induction i as [|i IH]; intros [|c bl] E; try discriminate; cbn in *; [congruence|now apply IH]. }
      rewrite S. destruct (j - i)%nat as [|d] eqn:D; [lia|]. cbn [firstn]. repeat f_equal. lia. }
    rewrite K, concat_app, len_app. cbn [concat]. rewrite len_app. lia.
  Qed.

  (** What is within the block of a reference stays unless it is stored to by this reference. *)
  Theorem own_bytes fs paths s m params x t y o : history p fs paths s -> vectors s -> sheltered p m params s ->
    reaches p (start m params s) x -> travels p x t y -> at_hand (state_of x) o ->
    exists b, stored (state_of x) o 0 b /\ shape (c_types (x_vm (state_of x))) b /\ SpecHeap.ready p (x_vm (state_of x)) /\
      forall d bs, bs <> [] -> stored (state_of x) o d bs -> d + len bs <= len b -> unassigned t o d (len bs) -> stored (state_of y) o d bs.
  Proof.
    intros H V Sh Rx T Ho. destruct (blocks_then _ _ _ _ _ _ H V Sh Rx) as (bl & M & G & F & Pt & Rd & Vx & Later).
    destruct (Pt _ Ho) as (Go & i & Hi & O). destruct (nth_error bl i) as [b|] eqn:E; [|apply nth_error_None in E; lia].
    exists b. split; [exact (block_at _ _ _ M G i b E Go O)|]. split; [rewrite Forall_forall in F; exact (F _ (nth_error_In _ _ E))|]. split; [exact Rd|].
    intros d bs Ne (Gs & before & after & Ms & Lb) Ld Un.
    destruct (Later y (travels_reaches _ _ _ _ T)) as (bl2 & M2 & G2 & _).
    assert (Ms' : forall j, N.of_nat j < o_off o + d + len bs -> o_off o + d <= N.of_nat j -> missed t j).
    { intros j L1 L2 fr s1 o1 d1 k1 X St Ck In1. pose proof (travels_moment _ _ _ _ T _ _ X) as R1.
      destruct (Later _ R1) as (bl1 & M1 & G1 & F1 & P1 & Rd1 & A1). cbn [state_of] in *.
      assert (Ho1 : at_hand s1 o1).
      { left. destruct St as [tok f v rest k It Lk Df Eo Wd|x0 i0 rest It Eo]; rewrite Eo; cbn; auto. }
      pose proof (P1 _ Ho1) as Pt1.
      destruct (store_inside bl1 fr s1 o1 d1 k1 M1 G1 F1 Pt1 Rd1) as (j1 & b1 & E1 & O1 & D1); [|exact St|exact Ck|].
      { apply (proj2 Sh). exact (reaches_trans _ _ _ _ Rx R1). }
      destruct (ages_at _ _ _ _ A1 E) as (b' & E' & Ag' & L').
      destruct (Nat.lt_trichotomy i j1) as [Lt|[->|Lt]].
      - pose proof (blocks_apart _ _ _ _ E' Lt) as Q. rewrite (aged_len _ _ Ag'), L', <- O, <- O1 in Q. lia.
      - assert (o1 = o) as ->.
        { destruct Pt1 as (Go1 & _). destruct o1 as [g1 f1], o as [g f]. cbn in *. congruence. }
        specialize (Un _ _ _ _ X St). unfold clear_of in Un. lia.
      - pose proof (blocks_apart _ _ _ _ E1 Lt) as Q. rewrite L', <- O, <- O1 in Q. lia. }
    assert (Lm : (List.length before + List.length bs <= List.length (memory (state_of x)))%nat) by (rewrite Ms, !app_length; lia).
    destruct (same_bytes (memory (state_of x)) (memory (state_of y)) before bs after Ms) as (before' & after' & My & Lb').
    - intros j Lj. apply (travels_same p x t y j T Vx); [|lia]. apply Ms'; unfold len in *; lia.
    - exact Ne.
    - split; [congruence|]. exists before', after'. split; [exact My|]. unfold len in *. lia.
  Qed.
End Blocks.

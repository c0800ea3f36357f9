(** The interpreter's loop against the relational description of executions, and the independence
    of the loop from its fuel. *)
From Coq Require Import NArith ZArith Arith Lia String List Bool.
From Coq.Strings Require Import Byte.
From Verif Require Import Base BaseFacts Metadata Utf SpecUtf UtfProofs Runtime Value Opcodes Gc Interp SpecExec
  SpecFrames InterpFacts InterpInv RuntimeInv FrameFacts.
Import ListNotations.
Open Scope N_scope.

(** ** Fuel *)

(** More fuel gives the same answer. *)
Definition refines {S A} (m m' : M S A) : Prop := forall s, m s = NoFuel \/ m' s = m s.

Lemma refines_refl {S A} (m : M S A) : refines m m. Proof. intro s. now right. Qed.
Lemma refines_nofuel {S A} (m : M S A) : refines nofuel m. Proof. intro s. now left. Qed.
Lemma refines_bind {S A B} (m m' : M S A) (k k' : A -> M S B) :
  refines m m' -> (forall a, refines (k a) (k' a)) -> refines (bind m k) (bind m' k').
Proof.
  intros Hm Hk s. unfold bind. destruct (Hm s) as [E|E].
  - left. now rewrite E.
  - rewrite E. destruct (m s); auto. apply Hk.
Qed.
Lemma refines_seq {S A B} (m : M S A) (k k' : A -> M S B) :
  (forall a, refines (k a) (k' a)) -> refines (bind m k) (bind m k').
Proof. apply refines_bind, refines_refl. Qed.
Lemma refines_on_vm {A} (m m' : M vm A) : refines m m' -> refines (on_vm m) (on_vm m').
Proof. intros H s. unfold on_vm. destruct (H (x_vm s)) as [E|E]; rewrite E; auto. Qed.
Lemma refines_fold_m {S A B} (f f' : A -> B -> M S A) : (forall a x, refines (f a x) (f' a x)) ->
  forall l a, refines (fold_m f a l) (fold_m f' a l).
Proof. intro H. induction l as [|x l IH]; intro a; cbn [fold_m]; [apply refines_refl|apply refines_bind; auto]. Qed.

Lemma refines_instance_of : forall f f' t u, (f <= f')%nat -> refines (instance_of f t u) (instance_of f' t u).
Proof.
  induction f as [|f IH]; intros [|f'] t u L; cbn [instance_of]; try apply refines_nofuel; [lia|].
  apply refines_seq. intros [|]; [apply refines_refl|].
  apply refines_seq. intro ti. destruct (ti_base ti); [apply IH; lia|apply refines_refl].
Qed.
Lemma refines_is_reference_type f f' t : (f <= f')%nat -> refines (is_reference_type f t) (is_reference_type f' t).
Proof.
  intro L. apply refines_seq. intro v. apply refines_bind; [now apply refines_instance_of|].
  intro b. apply refines_refl.
Qed.
Lemma refines_type_size p : forall f f' t, (f <= f')%nat -> refines (type_size f p t) (type_size f' p t).
Proof.
  induction f as [|f IH]; intros [|f'] t L; cbn [type_size]; try apply refines_nofuel; [lia|].
  apply refines_seq. intros [n|]; [apply refines_refl|].
  apply refines_seq. intro ti. apply refines_bind.
  - apply refines_fold_m. intros a x. apply refines_bind; [apply refines_is_reference_type; lia|].
    intro r. apply refines_bind; [destruct r; [apply refines_refl|apply IH; lia]|intro; apply refines_refl].
  - intro size. destruct (ti_base ti); [|apply refines_refl].
    apply refines_bind; [apply IH; lia|intro; apply refines_refl].
Qed.
Lemma refines_step p f f' fr : (f <= f')%nat -> refines (step f p fr) (step f' p fr).
Proof.
  intro L. apply refines_seq. intros [op fr1].
  assert (TS : forall t, refines (type_size f p t) (type_size f' p t)) by (intro; now apply refines_type_size).
  destruct op; unfold exec_op; cbv zeta; cbn match; try apply refines_refl.
  - unfold newobj. apply refines_seq. intros [tok fr2]. apply refines_seq. intro o. apply refines_seq. intro ctor.
    apply refines_bind; [|intro; apply refines_refl].
    unfold alloc. apply refines_bind; [now apply refines_on_vm|intro; apply refines_refl].
  - unfold newarr. apply refines_seq. intros [tok fr2]. apply refines_seq. intro o. apply refines_seq. intro t.
    apply refines_seq. intro n. apply refines_bind; [|intro; apply refines_refl].
    unfold alloc_array. apply refines_bind; [now apply refines_on_vm|intro; apply refines_refl].
Qed.
Lemma refines_in_frame {A} (m m' : M machine A) : refines m m' -> refines (in_frame m) (in_frame m').
Proof. intros H s. unfold in_frame. destruct (H (set_alloc s 0)) as [E|E]; rewrite E; auto. Qed.
Lemma refines_invoke go go' m c : (forall fr, refines (go fr) (go' fr)) -> refines (invoke go m c) (invoke go' m c).
Proof.
  intro H. unfold invoke. destruct (mt_impl m) as [|b|i]; try apply refines_refl.
  apply refines_seq. intro ti. apply refines_seq. intros _. apply refines_in_frame.
  apply refines_seq. intro l. apply H.
Qed.
Lemma refines_run p : forall f f' fr, (f <= f')%nat -> refines (run f p fr) (run f' p fr).
Proof.
  induction f as [|f IH]; intros [|f'] fr L; cbn [run]; try apply refines_nofuel; [lia|].
  apply refines_bind; [apply refines_step; lia|]. intros [fr'|v|m c r fr'].
  - apply IH. lia.
  - apply refines_refl.
  - apply refines_bind; [apply refines_invoke; intro; apply IH; lia|intro v].
    apply refines_seq. intros _. apply refines_seq. intros _. apply IH. lia.
Qed.

Lemma step_more p f f' fr s r : step f p fr s = r -> r <> NoFuel -> (f <= f')%nat -> step f' p fr s = r.
Proof. intros E N L. destruct (refines_step p f f' fr L s) as [H|H]; congruence. Qed.
Lemma run_more p f f' fr s r : run f p fr s = r -> r <> NoFuel -> (f <= f')%nat -> run f' p fr s = r.
Proof. intros E N L. destruct (refines_run p f f' fr L s) as [H|H]; congruence. Qed.
Lemma invoke_more p f f' m c s r : invoke (run f p) m c s = r -> r <> NoFuel -> (f <= f')%nat -> invoke (run f' p) m c s = r.
Proof.
  intros E N L. destruct (refines_invoke (run f p) (run f' p) m c (fun fr => refines_run p f f' fr L) s) as [H|H]; congruence.
Qed.

(** ** From the loop to the relation *)

Definition ends_as (r : res machine (option value)) (e : ending) : Prop :=
  match e with Done v s => r = Ok v s | Failed w s => r = Err w s end.


Lemma enters_run m b args s ti ai : nth_error (c_types (x_vm s)) (mt_declaring m) = Some ti ->
  nth_error (c_arena (x_vm s)) (ti_assembly ti) = Some (Some ai) ->
  exists l s1, stackalloc (len (b_locals b)) (set_alloc s 0) = Ok l s1 /\
    enters m b args s (mkFrame m (ti_assembly ti) (b_code b) 0 l args) s1.
Proof.
  intros Ht Ha. unfold stackalloc. cbv zeta. cbn [set_alloc x_frames x_alloc].
  eexists. eexists. split; [reflexivity|]. exists ti, ai. unfold in_use, room.
  assert (B : forall x y, (x <? y) = negb (y <=? x)) by (intros; rewrite N.ltb_antisym; reflexivity).
  rewrite B. destruct (_ <=? _); cbn [negb k_gen].
  - exists (k_gen (x_frames s)), (k_cap (x_frames s)). cbv zeta. auto 10.
  - eexists. eexists. cbv zeta. split; [exact Ht|]. split; [exact Ha|]. split; [split; reflexivity|].
    split; reflexivity.
Qed.
Lemma enters_inv m b args s fr s1 : enters m b args s fr s1 ->
  exists ti ai, nth_error (c_types (x_vm s)) (mt_declaring m) = Some ti /\
    nth_error (c_arena (x_vm s)) (ti_assembly ti) = Some (Some ai) /\
    stackalloc (len (b_locals b)) (set_alloc s 0) = Ok (fr_locals fr) s1 /\
    fr = mkFrame m (ti_assembly ti) (b_code b) 0 (fr_locals fr) args.
Proof.
  intros (ti & ai & gen & cap & Ht & Ha & Hg & -> & ->). exists ti, ai. repeat split; auto.
  unfold stackalloc. cbv zeta. cbn [set_alloc x_frames x_alloc]. unfold in_use, room in *.
  assert (B : forall x y, (x <? y) = negb (y <=? x)) by (intros; rewrite N.ltb_antisym; reflexivity).
  rewrite B. destruct (_ <=? _); cbn [negb k_gen]; destruct Hg as [-> ->]; reflexivity.
Qed.

(** A frame that returns has allocated what [leaves] releases. *)
Lemma leave_size m b args s fr s1 s2 : enters m b args s fr s1 -> advances fr s1 s2 ->
  leaves s s2 (set_alloc (set_frames s2 (mkFrames (k_gen (x_frames s2)) (k_cap (x_frames s2))
        (firstn (N.to_nat (len (k_cells (x_frames s2)) - x_alloc s2)) (k_cells (x_frames s2))))) (x_alloc s)).
Proof.
  intros (ti & ai & gen & cap & _ & _ & _ & _ & ->) A. pose proof (ad_size _ _ _ A) as Sz.
  cbn [x_frames x_alloc k_cells] in Sz. rewrite len_app, len_repeat in Sz. unfold leaves, in_use.
  replace (len (k_cells (x_frames s2)) - x_alloc s2) with (len (k_cells (x_frames s))) by lia.
  reflexivity.
Qed.

Section Loop.
  Variable (p : profile).

  Lemma the_type_on_vm t s ti s' : on_vm (the_type t) s = Ok ti s' <-> nth_error (c_types (x_vm s)) t = Some ti /\ s' = s.
  Proof.
    unfold on_vm, the_type. destruct (nth_error (c_types (x_vm s)) t).
    - split; [intro H; injection H as -> <-; split; [reflexivity|now destruct s]|intros [H ->]; injection H as ->; now destruct s].
    - split; [discriminate|intros [H _]; discriminate].
  Qed.
  Lemma the_assembly_on_vm a s ai s' : on_vm (the_assembly a) s = Ok ai s' <->
    nth_error (c_arena (x_vm s)) a = Some (Some ai) /\ s' = s.
  Proof.
    unfold on_vm, the_assembly. destruct (nth_error (c_arena (x_vm s)) a) as [[x|]|].
    - split; [intro H; injection H as -> <-; split; [reflexivity|now destruct s]|intros [H ->]; injection H as ->; now destruct s].
    - split; [discriminate|intros [H _]; discriminate].
    - split; [discriminate|intros [H _]; discriminate].
  Qed.

  Lemma variable_cell_get s c i v : cell_get c i s = Ok v s <-> variable s c i v.
  Proof.
    unfold cell_get, variable. destruct c as [|g base n].
    - destruct (nth_error _ _); split; intro H; congruence.
    - destruct (n <=? i) eqn:E; [split; [discriminate|intros (_ & H & _); lia]|].
      destruct (Nat.eqb g (k_gen (x_frames s))) eqn:G; cbn [negb].
      + apply Nat.eqb_eq in G. destruct (nth_error _ _).
        * split; [intro H; injection H as ->; repeat split; auto; lia|intros (_ & _ & H); congruence].
        * split; [discriminate|intros (_ & _ & H); discriminate].
      + apply Nat.eqb_neq in G. split; [discriminate|intros (H & _); contradiction].
  Qed.

  Lemma units_bound n : forall bs, Forall (fun u => u < 65536) (map le_dec (chunks 2 n bs)).
  Proof.
    induction n as [|n IH]; intro bs; cbn [chunks map]; constructor; auto.
    pose proof (le_dec_bound (firstn 2 bs)) as B.
    assert (L : len (firstn 2 bs) <= 2) by (unfold len; rewrite firstn_length; lia).
    assert (P : 256 ^ len (firstn 2 bs) <= 256 ^ 2) by (apply N.pow_le_mono_r; lia).
    change (256 ^ 2) with 65536 in P. lia.
  Qed.
  Lemma string_data_bound o s units s' : string_data o s = Ok units s' -> Forall (fun u => u < 65536) units.
  Proof.
    unfold string_data, bind, ret. destruct (load o 5 8 s) as [l s1| | | |]; try discriminate.
    destruct (load _ _ _ _) as [bs s2| | | |]; try discriminate. intro H. injection H as <- _. apply units_bound.
  Qed.

  Lemma console_calls m c s r s' : mt_impl m = IInternal ConsoleWrite -> console_write c s = Ok r s' ->
    exists t, calls p m c s t (Done r s').
  Proof.
    intros I E. pose proof (console_write_run c s) as H. rewrite E in H.
    destruct H as (-> & o & units & text & Hv & Hs & Hd & Hu & ->).
    exists [Write text]. apply utf16_decode_spec in Hu; [|eapply string_data_bound; eauto]. destruct Hu as [Hc ->].
    eapply calls_console with (o := o); eauto; [now apply variable_cell_get|]. repeat split; auto.
  Qed.

  Lemma in_frame_inv {A} (m : M machine A) s a s' : in_frame m s = Ok a s' ->
    exists s2, m (set_alloc s 0) = Ok a s2 /\
      s' = set_alloc (set_frames s2 (mkFrames (k_gen (x_frames s2)) (k_cap (x_frames s2))
        (firstn (N.to_nat (len (k_cells (x_frames s2)) - x_alloc s2)) (k_cells (x_frames s2))))) (x_alloc s).
  Proof.
    unfold in_frame. intro E. destruct (m (set_alloc s 0)) as [x s2|x s2|w|w|]; try discriminate.
    injection E as -> <-. eauto.
  Qed.
  Lemma in_frame_inv_err {A} (m : M machine A) s e s' : in_frame m s = Err e s' ->
    exists s2, m (set_alloc s 0) = Err e s2 /\
      s' = set_alloc (set_frames s2 (mkFrames (k_gen (x_frames s2)) (k_cap (x_frames s2))
        (firstn (N.to_nat (len (k_cells (x_frames s2)) - x_alloc s2)) (k_cells (x_frames s2))))) (x_alloc s).
  Proof.
    unfold in_frame. intro E. destruct (m (set_alloc s 0)) as [x s2|x s2|w|w|]; try discriminate.
    injection E as -> <-. eauto.
  Qed.

  Lemma invoke_calls f : (forall fr s e, ends_as (run f p fr s) e -> exists t, runs p fr s t e) ->
    forall m c s e, ends_as (invoke (run f p) m c s) e -> exists t, calls p m c s t e.
  Proof.
    intros IH m c s e. unfold invoke. destruct (mt_impl m) as [|b|i] eqn:Im.
    - destruct e; discriminate.
    - unfold bind at 1. destruct (on_vm (the_type (mt_declaring m)) s) as [ti s1|x s1|w|w|] eqn:Et;
        try (destruct e; discriminate).
      2:{ exfalso. revert Et. unfold on_vm, the_type. destruct (nth_error _ _); discriminate. }
      apply the_type_on_vm in Et. destruct Et as [Et ->].
      unfold bind at 1. destruct (on_vm (the_assembly (ti_assembly ti)) s) as [ai s1|x s1|w|w|] eqn:Ea;
        try (destruct e; discriminate).
      2:{ exfalso. revert Ea. clear. unfold on_vm, the_assembly.
          destruct (nth_error (c_arena (x_vm s)) (ti_assembly ti)) as [[y|]|]; discriminate. }
      apply the_assembly_on_vm in Ea. destruct Ea as [Ea ->].
      destruct (enters_run m b c s ti ai Et Ea) as (l & s1 & El & En).
      intro E. destruct e as [v s'|x s']; cbn in E.
      + apply in_frame_inv in E. destruct E as (s2 & E & ->).
        unfold bind in E. rewrite El in E.
        destruct (IH _ _ (Done v s2) E) as [t Ht]. exists t. eapply calls_il; eauto.
        eapply leave_size; eauto.
        pose proof (run_advances p f (mkFrame m (ti_assembly ti) (b_code b) 0 l c) s1) as A. rewrite E in A. exact A.
      + apply in_frame_inv_err in E. destruct E as (s2 & E & ->).
        unfold bind in E. rewrite El in E.
        destruct (IH _ _ (Failed x s2) E) as [t Ht]. exists t. eapply calls_il_fails; eauto.
        eapply leave_size; eauto.
        pose proof (run_advances p f (mkFrame m (ti_assembly ti) (b_code b) 0 l c) s1) as A. rewrite E in A. exact A.
    - destruct i; [|destruct e; discriminate..]. destruct e as [v s'|x s']; cbn; intro E.
      + eapply console_calls; eauto.
      + pose proof (console_write_run c s) as H. rewrite E in H. destruct H.
  Qed.

  Theorem run_runs : forall f fr s e, ends_as (run f p fr s) e -> exists t, runs p fr s t e.
  Proof.
    induction f as [|f IH]; intros fr s e; cbn [run]; [destruct e; discriminate|].
    unfold bind at 1. destruct (step f p fr s) as [o s1|x s1|w|w|] eqn:E; try (destruct e; discriminate).
    - destruct o as [fr'|v|m c r fr'].
      + intro H. destruct (IH _ _ _ H) as [t Ht]. eexists. eapply runs_next; eauto.
      + destruct e as [v' s'|]; cbn; intro H; [injection H as <- <-|discriminate].
        eexists. eapply runs_returns; eauto.
      + unfold bind at 1. destruct (invoke (run f p) m c s1) as [v s2|x s2|w|w|] eqn:Ei; try (destruct e; discriminate).
        * destruct (invoke_calls f IH m c s1 (Done v s2) Ei) as [t1 H1].
          unfold bind. rewrite push_if_run. cbn beta iota. rewrite push_if_run.
          intro H. destruct (IH _ _ _ H) as [t2 H2]. eexists. eapply runs_call; eauto.
        * destruct (invoke_calls f IH m c s1 (Failed x s2) Ei) as [t1 H1].
          destruct e as [|x' s']; cbn; intro H; [discriminate|injection H as <- <-].
          eexists. eapply runs_call_fails; eauto.
    - destruct e as [|x' s']; cbn; intro H; [discriminate|injection H as <- <-].
      eexists. eapply runs_fails; eauto.
  Qed.

  Lemma ends_as_fuel r e : ends_as r e -> r <> NoFuel.
  Proof. destruct e; cbn; congruence. Qed.

  (** ** From the relation to the loop *)

  Theorem runs_run :
    (forall fr s t e, runs p fr s t e -> exists f, ends_as (run f p fr s) e) /\
    (forall m c s t e, calls p m c s t e -> exists f, ends_as (invoke (run f p) m c s) e).
  Proof.
    apply (traces_ind p
      (fun fr s t e _ => exists f, ends_as (run f p fr s) e)
      (fun m c s t e _ => exists f, ends_as (invoke (run f p) m c s) e)).
    - intros f fr s e s' E. exists (S f). cbn [run]. unfold bind. rewrite E. reflexivity.
    - intros f fr s v s' E. exists (S f). cbn [run]. unfold bind. rewrite E. reflexivity.
    - intros f fr s fr' s' t e E _ [f' IH]. exists (S (f + f')). cbn [run]. unfold bind at 1.
      rewrite (step_more p f (f + f') fr s _ E) by (discriminate || lia).
      rewrite (run_more p f' (f + f') _ _ _ eq_refl); [exact IH|eapply ends_as_fuel; eauto|lia].
    - intros f fr s m c r fr' s1 t1 v s2 t2 e E _ [f1 IH1] _ [f2 IH2].
      exists (S (f + f1 + f2)). cbn [run]. unfold bind at 1.
      rewrite (step_more p f (f + f1 + f2) fr s _ E) by (discriminate || lia).
      unfold bind at 1. cbn in IH1. rewrite (invoke_more p f1 (f + f1 + f2) _ _ _ _ IH1) by (discriminate || lia).
      unfold bind. rewrite push_if_run. cbn beta iota. rewrite push_if_run.
      match goal with |- ends_as (run _ _ _ ?x) _ => set (s3 := x) end.
      assert (E3 : s3 = with_operands s2 (then_push (then_push (x_operands s2) v) r)).
      { unfold s3, with_operands, then_push. destruct r, v; reflexivity. }
      rewrite E3. rewrite (run_more p f2 (f + f1 + f2) _ _ _ eq_refl); [exact IH2|eapply ends_as_fuel; eauto|lia].
    - intros f fr s m c r fr' s1 t1 e s2 E _ [f1 IH1].
      exists (S (f + f1)). cbn [run]. unfold bind at 1.
      rewrite (step_more p f (f + f1) fr s _ E) by (discriminate || lia).
      unfold bind at 1. cbn in IH1. rewrite (invoke_more p f1 (f + f1) _ _ _ _ IH1) by (discriminate || lia). reflexivity.
    - intros m b c s fr s1 t v s2 s3 Im En Hr [f IH] L. exists f. cbn in IH.
      pose proof En as En'. apply enters_inv in En'. destruct En' as (ti & ai & Et & Ea & El & Ef).
      unfold invoke. rewrite Im. unfold bind at 1. rewrite (proj2 (the_type_on_vm _ _ _ _) (conj Et eq_refl)).
      unfold bind at 1. rewrite (proj2 (the_assembly_on_vm _ _ _ _) (conj Ea eq_refl)).
      unfold in_frame, bind. rewrite El. rewrite <- Ef, IH. cbn [ends_as].
      pose proof (run_advances p f fr s1) as A. rewrite IH in A.
      pose proof (leave_size _ _ _ _ _ _ _ En A) as L'. unfold leaves in *. rewrite L. cbv zeta. now rewrite L'.
    - intros m b c s fr s1 t v s2 s3 Im En Hr [f IH] L. exists f. cbn in IH.
      pose proof En as En'. apply enters_inv in En'. destruct En' as (ti & ai & Et & Ea & El & Ef).
      unfold invoke. rewrite Im. unfold bind at 1. rewrite (proj2 (the_type_on_vm _ _ _ _) (conj Et eq_refl)).
      unfold bind at 1. rewrite (proj2 (the_assembly_on_vm _ _ _ _) (conj Ea eq_refl)).
      unfold in_frame, bind. rewrite El. rewrite <- Ef, IH. cbn [ends_as].
      pose proof (run_advances p f fr s1) as A. rewrite IH in A.
      pose proof (leave_size _ _ _ _ _ _ _ En A) as L'. unfold leaves in *. rewrite L. cbv zeta. now rewrite L'.
    - intros m c s o text r s' Im _ _ E. exists O. unfold invoke. rewrite Im. exact E.
  Qed.
End Loop.

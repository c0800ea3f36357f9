(** Methods with consistent stacks leave the operands of their callers alone and push their result. *)
From Coq Require Import NArith ZArith Arith Lia String List Bool.
From Coq.Strings Require Import Byte.
From Verif Require Import Base BaseFacts Metadata Runtime Value Opcodes Gc Interp SpecRuntime RuntimeInv SpecExec SpecFrames SpecStack
  InterpFacts InterpInv FrameFacts TraceFacts VmFacts CallFacts TraceProps PropsDecode PropsCompare StackFacts.
Import ListNotations.
Open Scope N_scope.

Section Verified.
  Variables (p : profile) (v0 : vm) (T : method_info -> Prop).
  Hypothesis V : verified v0 T.

  Definition since (s : vm) : Prop := consistent p s /\ grows v0 s.
  Lemma since_step f fr s : since (x_vm s) ->
    match step f p fr s with Ok _ s' | Err _ s' => since (x_vm s') | _ => True end.
  Proof.
    intros [W G]. pose proof (step_quiet f p fr s) as Q.
    destruct (step f p fr s) as [o s'|e s'|w|w|]; auto; destruct Q as [_ Q]; destruct (Q W) as [W' A];
      (split; [exact W'|]); eapply grows_trans; eauto; now apply evolves_grows, appends_evolves.
  Qed.
  Lemma since_calls m c s t e : calls p m c s t e -> since (x_vm s) -> since (x_vm (final e)).
  Proof.
    intros H [W G]. destruct (proj2 (runs_prints p) _ _ _ _ _ H) as [_ Q]. destruct (Q W) as [W' G'].
    split; [exact W'|eapply grows_trans; eauto].
  Qed.

  (** The operands at the bottom of the stack are [base]. *)
  Definition above (base : list value) (x : moment) : Prop :=
    match x with At _ s => exists l, x_operands s = l ++ base | Write _ => True end.
  Lemma above_app base l x : above (l ++ base) x -> above base x.
  Proof. destruct x; cbn; auto. intros [l' ->]. exists (l' ++ l). now rewrite app_assoc. Qed.

  Definition frame_ok (fr : frame) (s : machine) (t : list moment) (e : ending) : Prop :=
    forall d l base,
      balanced v0 T (fr_method fr) (fr_assembly fr) (fr_code fr) d -> d (fr_ip fr) = Some (List.length l) ->
      x_operands s = l ++ base -> since (x_vm s) ->
      Forall (above base) t /\
      match e with
      | Done v s' => x_operands s' = base /\ results v0 (fr_method fr) (List.length (then_push [] v))
      | Failed _ _ => True
      end.
  Definition call_ok (m : method_info) (c : cells) (s : machine) (t : list moment) (e : ending) : Prop :=
    T m -> since (x_vm s) -> Forall (above (x_operands s)) t /\
      match e with
      | Done v s' => x_operands s' = x_operands s /\ results v0 m (List.length (then_push [] v))
      | Failed _ _ => True
      end.

  (** What a step of such a frame can be. *)
  Inductive turn (fr : frame) (d : N -> option nat) (base : list value) : outcome -> machine -> Prop :=
  | turn_next fr' s' l : frame_at fr fr' (fr_ip fr') -> d (fr_ip fr') = Some (List.length l) -> x_operands s' = l ++ base ->
      turn fr d base (ONext fr') s'
  | turn_call m c r fr' s' l n : frame_at fr fr' (fr_ip fr') -> T m -> results v0 m n -> x_operands s' = l ++ base ->
      d (fr_ip fr') = Some (n + List.length (then_push l r))%nat -> turn fr d base (OCall m c r fr') s'
  | turn_return v s' : results v0 (fr_method fr) (List.length (then_push [] v)) -> x_operands s' = base ->
      turn fr d base (OReturn v) s'.

  Lemma split_top {A} (l base : list A) k : (k <= List.length l)%nat ->
    exists l1 l2, l = l1 ++ l2 /\ List.length l1 = k /\ List.length l2 = (List.length l - k)%nat.
  Proof.
    intro H. exists (firstn k l), (skipn k l). rewrite firstn_skipn, firstn_length, skipn_length.
    split; [reflexivity|]. split; lia.
  Qed.

  Lemma frame_at_ip fr fr' ip : frame_at fr fr' ip -> frame_at fr fr' (fr_ip fr') /\ fr_ip fr' = ip.
  Proof. unfold frame_at. intuition. Qed.

  Lemma turns f fr s d l base o s' :
    balanced v0 T (fr_method fr) (fr_assembly fr) (fr_code fr) d -> d (fr_ip fr) = Some (List.length l) ->
    x_operands s = l ++ base -> since (x_vm s) -> step f p fr s = Ok o s' -> turn fr d base o s'.
  Proof.
    intros (Lc & D0 & B) Dk O [W G] E. destruct (B _ _ Dk) as [Hip A].
    assert (Small : forall target k, d target = Some k -> target < 2 ^ 32).
    { intros target k Ht. destruct (B _ _ Ht) as [H _]. lia. }
    destruct A as [op n pops pushes operand I C Lo Lp Dn|i n bs target K C Lb Ht Dt|i n bs rel target K C Lb Ht Lk Dt Dn
      |i n bs zero target K C Lb Ht Lk Dt Dn|bs m' r C Lb Dm Tm R La Dn|bs m' C Lb Dm Tm St R La Dn|C R].
    - destruct (split_top l base pops Lp) as (l1 & l2 & -> & L1 & L2). rewrite <- app_assoc in O.
      destruct (step_effect f p fr s op n pops pushes operand o s' l1 (l2 ++ base) I C Lo O L1 E) as (fr' & l' & -> & F & O' & L').
      destruct (frame_at_ip _ _ _ F) as [F' Ei]. rewrite app_assoc in O'. apply (turn_next fr d base fr' s' (l' ++ l2)); auto.
      rewrite Ei, Dn. f_equal. rewrite !app_length in *. lia.
    - destruct (step_jump f p fr s i n bs o s' K C Lb) as (fr' & ip & -> & F & Hi & O'); [|exact E|].
      + specialize (Small _ _ Dt). lia.
      + destruct (frame_at_ip _ _ _ F) as [F' Ei]. apply (turn_next fr d base fr' s' l); auto; [|congruence].
        replace (fr_ip fr') with target by lia. exact Dt.
    - destruct (split_top l base 2 Lk) as (l1 & l2 & -> & L1 & L2). rewrite <- app_assoc in O.
      destruct (step_conditional f p fr s i n bs o s' l1 (l2 ++ base) 2) as (fr' & ip & -> & F & O' & Hi); eauto.
      + specialize (Small _ _ Dt). lia.
      + destruct (frame_at_ip _ _ _ F) as [F' Ei]. apply (turn_next fr d base fr' s' l2); auto. rewrite L2.
        destruct Hi as [Hi|Hi]; [replace (fr_ip fr') with (fr_ip fr + 1 + N.of_nat n) by lia; exact Dn|].
        replace (fr_ip fr') with target by lia. exact Dt.
    - destruct (split_top l base 1 Lk) as (l1 & l2 & -> & L1 & L2). rewrite <- app_assoc in O.
      destruct (step_conditional f p fr s i n bs o s' l1 (l2 ++ base) 1) as (fr' & ip & -> & F & O' & Hi); eauto.
      + specialize (Small _ _ Dt). lia.
      + destruct (frame_at_ip _ _ _ F) as [F' Ei]. apply (turn_next fr d base fr' s' l2); auto. rewrite L2.
        destruct Hi as [Hi|Hi]; [replace (fr_ip fr') with (fr_ip fr + 1 + N.of_nat n) by lia; exact Dn|].
        replace (fr_ip fr') with target by lia. exact Dt.
    - destruct (split_top l base _ La) as (l1 & l2 & -> & L1 & L2). rewrite <- app_assoc in O.
      destruct (step_call f p fr s bs m' (rev l1) (l2 ++ base)) as (fr' & c & s1 & E1 & F & _ & O' & _); auto.
      + eapply denotes_grows; eauto.
      + now rewrite rev_involutive.
      + now rewrite rev_length.
      + rewrite E in E1. injection E1 as -> ->. destruct (frame_at_ip _ _ _ F) as [F' Ei].
        apply (turn_call fr d base m' c None fr' s1 l2 r); auto. cbn [then_push]. rewrite Ei, Dn. f_equal. rewrite !app_length in *. lia.
    - destruct (split_top l base _ La) as (l1 & l2 & -> & L1 & L2). rewrite <- app_assoc in O.
      destruct (step_newobj f p fr s bs m' (rev l1) (l2 ++ base) o s') as (fr' & c & ob & -> & F & _ & O' & _); auto.
      + eapply denotes_grows; eauto.
      + now rewrite rev_involutive.
      + now rewrite rev_length.
      + destruct (frame_at_ip _ _ _ F) as [F' Ei].
        apply (turn_call fr d base m' c (Some (VObject ob)) fr' s' l2 0); auto. cbn [then_push List.length].
        rewrite Ei, Dn. f_equal. rewrite !app_length in *. lia.
    - destruct (step_ret f p fr s o s' l base (List.length l) W C) as (v & -> & O' & Hv); auto.
      + eapply results_grow; eauto.
      + apply turn_return; [now rewrite <- Hv|exact O'].
  Qed.

  Lemma balanced_frame fr fr' d ip : frame_at fr fr' ip -> balanced v0 T (fr_method fr) (fr_assembly fr) (fr_code fr) d ->
    balanced v0 T (fr_method fr') (fr_assembly fr') (fr_code fr') d.
  Proof. intros (-> & -> & -> & _). auto. Qed.
  Lemma then_push_app l base v : then_push (l ++ base) v = then_push l v ++ base.
  Proof. now destruct v. Qed.
  Lemma then_push_length l v : List.length (then_push l v) = (List.length (then_push [] v) + List.length l)%nat.
  Proof. now destruct v. Qed.

  Theorem verified_ok :
    (forall fr s t e, runs p fr s t e -> frame_ok fr s t e) /\ (forall m c s t e, calls p m c s t e -> call_ok m c s t e).
  Proof.
    apply (traces_ind p (fun fr s t e _ => frame_ok fr s t e) (fun m c s t e _ => call_ok m c s t e)).
    - intros f fr s e s' E d l base B Dk O S. split; [|exact Logic.I]. repeat constructor. cbn. eauto.
    - intros f fr s v s' E d l base B Dk O S. split; [repeat constructor; cbn; eauto|].
      pose proof (turns f fr s d l base _ _ B Dk O S E) as H. inversion H; subst. auto.
    - intros f fr s fr' s' t e E H IH d l base B Dk O S.
      pose proof (since_step f fr s S) as S'. rewrite E in S'.
      pose proof (turns f fr s d l base _ _ B Dk O S E) as Tn. inversion Tn as [? ? l' F Dk' O'| |]; subst.
      destruct (IH d l' base (balanced_frame _ _ _ _ F B) Dk' O' S') as [I1 I2].
      split; [constructor; [cbn; eauto|exact I1]|]. now destruct F as (<- & _).
    - intros f fr s m c r fr' s1 t1 v s2 t2 e E Hc IHc H IH d l base B Dk O S.
      pose proof (since_step f fr s S) as S1. rewrite E in S1.
      pose proof (turns f fr s d l base _ _ B Dk O S E) as Tn. inversion Tn as [|? ? ? ? ? l' n F Tm R O' Dk'|]; subst.
      destruct (IHc Tm S1) as [I1 [O2 R2]]. pose proof (since_calls _ _ _ _ _ Hc S1) as S2. cbn [final] in S2.
      assert (n = List.length (then_push [] v)) by (eapply results_unique; eauto). subst n.
      destruct (IH d (then_push (then_push l' v) r) base (balanced_frame _ _ _ _ F B)) as [I2 I3].
      + rewrite Dk'. f_equal. rewrite (then_push_length (then_push l' v)), (then_push_length l' v), (then_push_length l' r). lia.
      + cbn [with_operands x_operands]. rewrite O2, O', !then_push_app. reflexivity.
      + exact S2.
      + split; [|now destruct F as (<- & _)]. constructor; [cbn; eauto|]. apply Forall_app. split; [|exact I2].
        eapply Forall_impl; [|exact I1]. intros x Hx. rewrite O' in Hx. eapply above_app; eauto.
    - intros f fr s m c r fr' s1 t1 e s2 E Hc IHc d l base B Dk O S.
      pose proof (since_step f fr s S) as S1. rewrite E in S1.
      pose proof (turns f fr s d l base _ _ B Dk O S E) as Tn. inversion Tn as [|? ? ? ? ? l' n F Tm R O' Dk'|]; subst.
      destruct (IHc Tm S1) as [I1 _]. split; [|exact Logic.I]. constructor; [cbn; eauto|].
      eapply Forall_impl; [|exact I1]. intros x Hx. rewrite O' in Hx. eapply above_app; eauto.
    - intros m b c s fr s1 t v s2 s3 Im En H IH Lv Tm S.
      pose proof (V m Tm) as Vm. rewrite Im in Vm. destruct Vm as (ti & d & Et & B).
      destruct En as (ti' & ai & gen & cap & Et' & _ & _ & -> & ->).
      assert (ti' = ti) by (pose proof (types_grow _ _ _ _ (proj2 S) Et); congruence). subst ti'.
      destruct (IH d [] (x_operands s)) as [I1 [I2 I3]]; cbn; auto; [apply B|].
      split; [exact I1|]. split; [|exact I3]. rewrite <- I2. now rewrite Lv.
    - intros m b c s fr s1 t e s2 s3 Im En H IH Lv Tm S.
      pose proof (V m Tm) as Vm. rewrite Im in Vm. destruct Vm as (ti & d & Et & B).
      destruct En as (ti' & ai & gen & cap & Et' & _ & _ & -> & ->).
      assert (ti' = ti) by (pose proof (types_grow _ _ _ _ (proj2 S) Et); congruence). subst ti'.
      destruct (IH d [] (x_operands s)) as [I1 _]; cbn; auto; apply B.
    - intros m c s o text r s' Im _ _ E Tm S. split; [repeat constructor|].
      pose proof (V m Tm) as Vm. rewrite Im in Vm. pose proof (console_write_run c s) as H. rewrite E in H.
      destruct H as (-> & o' & u & x & _ & _ & _ & _ & ->). split; [reflexivity|exact Vm].
  Qed.
End Verified.

(** Further facts about whole executions: storage that does not move, determinism, console output
    at every moment. *)
From Coq Require Import NArith ZArith Arith Lia String List Bool.
From Coq.Strings Require Import Byte.
From Verif Require Import Base BaseFacts Metadata Utf SpecUtf UtfProofs Runtime Value Opcodes Gc Interp SpecRuntime
  RuntimeInv SpecExec SpecFrames InterpFacts InterpInv FrameFacts TraceFacts VmFacts CallFacts.
Import ListNotations.
Open Scope N_scope.

(** ** Returning *)

Definition no_return (m : M machine outcome) : Prop :=
  forall s, match m s with Ok (OReturn _) _ => False | _ => True end.
Lemma no_return_bind {A} (m : M machine A) k : (forall a, no_return (k a)) -> no_return (bind m k).
Proof. intros H s. unfold bind. destruct (m s); auto. apply H. Qed.
Lemma no_return_next fr : no_return (next fr). Proof. intro s. exact Logic.I. Qed.
Lemma no_return_fail e : no_return (fail e). Proof. intro s. exact Logic.I. Qed.
Lemma no_return_call m c r fr : no_return (ret (OCall m c r fr)). Proof. intro s. exact Logic.I. Qed.
Lemma exec_op_returns fuel p op fr s :
  match exec_op fuel p op fr s with Ok (OReturn _) _ => op = Ret | _ => True end.
Proof.
  assert (K : op = Ret \/ no_return (exec_op fuel p op fr)).
  { destruct op; auto; right; unfold exec_op; cbv zeta; cbn match;
    unfold ldc, ld_n, st_n, ld, st, br, br_if, br_cmp, compare, op2, op1, stfld, ldfld, newarr, stelem_i4,
      ldelem_i4, ldstr, newobj, method_call;
    repeat first
      [ apply no_return_next | apply no_return_fail | apply no_return_call
      | apply no_return_bind; intro
      | match goal with |- no_return (match ?x with _ => _ end) => destruct x end ]. }
  destruct K as [K|K]; [destruct (exec_op _ _ _ _ _) as [[]| | | |]; auto|].
  specialize (K s). destruct (exec_op _ _ _ _ _) as [[]| | | |]; auto. destruct K.
Qed.

Lemma get_opcode_ret fr fr' s s' : get_opcode fr s = Ok (Ret, fr') s' ->
  nth_error (fr_code fr) (N.to_nat (fr_ip fr)) = Some x2a.
Proof.
  unfold get_opcode, code_at. destruct (nth_error (fr_code fr) (N.to_nat (fr_ip fr))) as [b|]; [|discriminate].
  unfold bind at 1. cbn [ret]. change (opcode_code Prefix7) with 248. destruct (N.ltb_spec 248 (bn b)) as [L|L].
  - destruct (nth_error (fr_code fr) (N.to_nat (fr_ip fr + 1))) as [c|]; [|discriminate].
    unfold bind, unwrap, ret. destruct (from_u16 _) as [op|] eqn:E; [|discriminate]. intro H. injection H as -> _ _.
    exfalso. destruct b; try (exfalso; revert L; clear; vm_compute; discriminate); destruct c; vm_compute in E; discriminate.
  - unfold bind, unwrap, ret. destruct (from_u16 (bn b)) as [op|] eqn:E; [|discriminate]. intro H. injection H as -> _ _.
    destruct b; vm_compute in E; try discriminate. reflexivity.
Qed.

Lemma step_returns f p fr s v s' : step f p fr s = Ok (OReturn v) s' ->
  nth_error (fr_code fr) (N.to_nat (fr_ip fr)) = Some x2a /\
  exists l, s' = set_operands s l /\
    (v = None /\ l = x_operands s \/ exists x, v = Some x /\ x_operands s = x :: l).
Proof.
  unfold step. unfold bind at 1. pose proof (get_opcode_frame fr s) as G.
  destruct (get_opcode fr s) as [[op fr1] s1|e s1|w|w|] eqn:Eo; try discriminate.
  destruct G as [-> F]. pose proof (exec_op_returns f p op fr1 s) as R. intro E. rewrite E in R. subst op.
  split; [now apply get_opcode_ret in Eo|].
  unfold exec_op in E. cbv zeta in E. cbn match in E. unfold ret_op in E. unfold bind at 1 in E.
  assert (P1 : pure (on_vm (get_type (bytes_of_string "System.Void")))) by (apply pure_on_vm, pure_get_type).
  specialize (P1 s). destruct (on_vm (get_type _) s) as [o s1|e1 s1|w|w|]; try discriminate. subst s1.
  unfold bind at 1 in E.
  assert (P2 : pure (match o with None => ret false | Some t => on_vm (type_eq (mt_return (fr_method fr1)) t) end)).
  { destruct o; [apply pure_on_vm, pure_type_eq|apply pure_ret]. }
  specialize (P2 s). match type of P2 with match ?x with _ => _ end => destruct x as [b s1|e1 s1|w|w|]; try discriminate end. subst s1.
  destruct b.
  - injection E as <- <-. exists (x_operands s). split; [now destruct s|left; auto].
  - unfold bind, try_pop, ret in E. destruct (x_operands s) as [|x l] eqn:El; injection E as <- <-.
    + exists []. split; [destruct s; cbn in El; now subst|left; auto].
    + exists l. split; [reflexivity|right; eauto].
Qed.

(** ** Storage that does not move *)

Definition still (s s' : machine) : Prop := k_gen (x_frames s') = k_gen (x_frames s) /\ room s' = room s.
Definition still_end (s : machine) (e : ending) : Prop := match e with Done _ s' => still s s' | Failed _ _ => True end.
Definition enough (c : N) (t : list moment) : Prop := forall fr s, In (At fr s) t -> in_use s <= c.
Definition all_current (t : list moment) : Prop :=
  forall fr s, In (At fr s) t -> current s (fr_locals fr) /\ current s (fr_params fr).

Lemma runs_first p fr s t e : runs p fr s t e -> exists t', t = At fr s :: t'.
Proof. intro H. destruct H; eauto. Qed.
Lemma failed_call_first p m c s t e s' : calls p m c s t (Failed e s') ->
  exists fr s1 t', t = At fr s1 :: t' /\ in_use s <= in_use s1.
Proof.
  intro H. inversion H as [|? b ? ? fr s1 ? ? s2 ? Im En Hr Hl|]; subst.
  destruct (runs_first _ _ _ _ _ Hr) as [t' ->]. exists fr, s1, t'. split; [reflexivity|].
  apply enters_cells in En. destruct En as (Ec & _). unfold in_use. rewrite Ec, len_app. lia.
Qed.
Lemma moves_still s0 s1 : moves_show s0 s1 -> in_use s1 <= room s0 -> still s0 s1.
Proof. intros [_ [H|H]] L; [exact H|lia]. Qed.

Theorem runs_current p :
  (forall fr s t e, runs p fr s t e -> current s (fr_locals fr) -> current s (fr_params fr) -> enough (room s) t ->
     all_current t /\ still_end s e) /\
  (forall m c s t e, calls p m c s t e -> current s c -> enough (room s) t -> all_current t /\ still_end s e).
Proof.
  assert (At1 : forall fr s, current s (fr_locals fr) -> current s (fr_params fr) -> all_current [At fr s]).
  { intros fr s A B fr' s' [H|[]]. injection H as <- <-. auto. }
  assert (AtC : forall fr s t, current s (fr_locals fr) -> current s (fr_params fr) -> all_current t -> all_current (At fr s :: t)).
  { intros fr s t A B C fr' s' [H|H]; [injection H as <- <-; auto|eauto]. }
  apply (traces_ind p
    (fun fr s t e _ => current s (fr_locals fr) -> current s (fr_params fr) -> enough (room s) t ->
       all_current t /\ still_end s e)
    (fun m c s t e _ => current s c -> enough (room s) t -> all_current t /\ still_end s e)).
  - intros f fr s e s' E A B _. split; [auto|exact Logic.I].
  - intros f fr s v s' E A B _. split; [auto|]. apply step_returns in E. destruct E as (_ & l & -> & _). split; reflexivity.
  - intros f fr s fr' s' t e E Hr IH A B En.
    pose proof (step_moves f p fr s) as M. rewrite E in M. destruct M as [M F].
    destruct (runs_first _ _ _ _ _ Hr) as [t' ->].
    assert (St : still s s'). { apply moves_still; [exact M|]. apply (En fr' s'). right; left; reflexivity. }
    destruct St as [G R]. destruct F as (_ & _ & _ & FL & FP). destruct M as [L _].
    destruct IH as [C S'].
    + rewrite FL. eapply current_later; eauto.
    + rewrite FP. eapply current_later; eauto.
    + rewrite R. intros f2 s2 H2. apply (En f2 s2). right. exact H2.
    + split; [auto|]. destruct e; [|exact Logic.I]. destruct S'. split; congruence.
  - intros f fr s m c r fr' s1 t1 v s2 t2 e E Hc IH1 Hr IH2 A B En.
    pose proof (step_moves f p fr s) as M. rewrite E in M. destruct M as [M [F Cc]].
    pose proof (calls_restores _ _ _ _ _ _ Hc) as Re. cbn [final] in Re.
    destruct (runs_first _ _ _ _ _ Hr) as [t' ->].
    assert (U : in_use s2 = in_use s1) by apply Re.
    assert (St : still s s1).
    { apply moves_still; [exact M|]. rewrite <- U.
      apply (En fr' (with_operands s2 (then_push (then_push (x_operands s2) v) r))). right. apply in_or_app. right. left. reflexivity. }
    destruct St as [G R]. destruct F as (_ & _ & _ & FL & FP). destruct M as [L _].
    destruct (IH1 Cc) as [C1 [G1 R1]].
    { rewrite R. intros f3 s3 H3. apply (En f3 s3). right. apply in_or_app. now left. }
    destruct IH2 as [C2 S2].
    + rewrite FL. eapply current_later; [exact A|cbn; congruence|unfold in_use in *; cbn; lia].
    + rewrite FP. eapply current_later; [exact B|cbn; congruence|unfold in_use in *; cbn; lia].
    + replace (room (with_operands s2 (then_push (then_push (x_operands s2) v) r))) with (room s) by (unfold room in *; cbn; congruence).
      intros f3 s3 H3. apply (En f3 s3). right. apply in_or_app. now right.
    + split.
      * apply AtC; auto. intros f3 s3 H3. apply in_app_iff in H3. destruct H3; [apply C1|apply C2]; auto.
      * destruct e; [|exact Logic.I]. destruct S2 as [G2 R2]. unfold still_end, still, room in *. cbn in G2, R2. split; congruence.
  - intros f fr s m c r fr' s1 t1 e s2 E Hc IH1 A B En.
    pose proof (step_moves f p fr s) as M. rewrite E in M. destruct M as [M [F Cc]].
    destruct (failed_call_first _ _ _ _ _ _ _ Hc) as (f3 & s3 & t' & -> & U).
    assert (St : still s s1).
    { apply moves_still; [exact M|]. etransitivity; [exact U|]. apply (En f3 s3). right. left. reflexivity. }
    destruct St as [G R]. destruct (IH1 Cc) as [C1 _].
    { rewrite R. intros f4 s4 H4. apply (En f4 s4). now right. }
    split; [|exact Logic.I]. apply AtC; auto.
  - intros m b c s fr s1 t v s2 s3 _ En Hr IH L Cc Eno.
    destruct (runs_first _ _ _ _ _ Hr) as [t' ->]. pose proof En as En'. apply enters_cells in En'.
    destruct En' as (Ec & _ & Ep & _).
    assert (U : in_use s1 = in_use s + len (b_locals b)).
    { unfold in_use. rewrite Ec, len_app, len_repeat. lia. }
    assert (Le : in_use s1 <= room s) by (apply (Eno fr s1); left; reflexivity).
    destruct En as (ti & ai & gen & cap & _ & _ & Hg & Ef & Es). rewrite U in Le.
    cbv zeta in Hg. destruct (N.leb_spec (in_use s + len (b_locals b)) (room s)); [|lia]. destruct Hg as [-> ->].
    assert (G1 : k_gen (x_frames s1) = k_gen (x_frames s)) by now rewrite Es.
    assert (R1 : room s1 = room s) by now rewrite Es.
    destruct IH as [C S1].
    + rewrite Ef. cbn. split; [now rewrite G1|lia].
    + rewrite Ep. eapply current_later; eauto. lia.
    + rewrite R1. exact Eno.
    + split; [exact C|]. destruct S1 as [G2 R2]. rewrite L. unfold still_end, still, room in *. cbn. split; congruence.
  - intros m b c s fr s1 t v s2 s3 _ En Hr IH L Cc Eno.
    destruct (runs_first _ _ _ _ _ Hr) as [t' ->]. pose proof En as En'. apply enters_cells in En'.
    destruct En' as (Ec & _ & Ep & _).
    assert (U : in_use s1 = in_use s + len (b_locals b)).
    { unfold in_use. rewrite Ec, len_app, len_repeat. lia. }
    assert (Le : in_use s1 <= room s) by (apply (Eno fr s1); left; reflexivity).
    destruct En as (ti & ai & gen & cap & _ & _ & Hg & Ef & Es). rewrite U in Le.
    cbv zeta in Hg. destruct (N.leb_spec (in_use s + len (b_locals b)) (room s)); [|lia]. destruct Hg as [-> ->].
    assert (G1 : k_gen (x_frames s1) = k_gen (x_frames s)) by now rewrite Es.
    assert (R1 : room s1 = room s) by now rewrite Es.
    destruct IH as [C _].
    + rewrite Ef. cbn. split; [now rewrite G1|lia].
    + rewrite Ep. eapply current_later; eauto. lia.
    + rewrite R1. exact Eno.
    + split; [exact C|exact Logic.I].
  - intros m c s o text r s' _ _ _ E Cc _. split.
    + intros fr' s2 [H|[]]. discriminate H.
    + pose proof (console_write_run c s) as W. rewrite E in W. destruct W as (_ & o' & u & t' & _ & _ & _ & _ & ->).
      split; reflexivity.
Qed.

(** ** Determinism *)

Lemma step_same p f f' fr s r r' : step f p fr s = r -> step f' p fr s = r' -> r <> NoFuel -> r' <> NoFuel -> r = r'.
Proof.
  intros E E' N N'. pose proof (step_more p f (f + f') fr s r E N ltac:(lia)).
  pose proof (step_more p f' (f + f') fr s r' E' N' ltac:(lia)). congruence.
Qed.
Ltac same_step := match goal with
  | A : step _ _ ?fr ?s = _, B : step _ _ ?fr ?s = _ |- _ =>
      pose proof (step_same _ _ _ _ _ _ _ A B ltac:(discriminate) ltac:(discriminate)) as Same; clear B
  end.

Theorem runs_deterministic p :
  (forall fr s t e, runs p fr s t e -> forall t' e', runs p fr s t' e' -> t = t' /\ e = e') /\
  (forall m c s t e, calls p m c s t e -> forall t' e', calls p m c s t' e' -> t = t' /\ e = e').
Proof.
  apply (traces_ind p
    (fun fr s t e _ => forall t' e', runs p fr s t' e' -> t = t' /\ e = e')
    (fun m c s t e _ => forall t' e', calls p m c s t' e' -> t = t' /\ e = e')).
  - intros f fr s e s' E t' e' H. inversion H; subst; same_step; try discriminate. injection Same as <- <-. auto.
  - intros f fr s v s' E t' e' H. inversion H; subst; same_step; try discriminate. injection Same as <- <-. auto.
  - intros f fr s fr' s' t e E _ IH t' e' H. inversion H; subst; same_step; try discriminate. injection Same as <- <-.
    match goal with H : runs p fr' s' _ _ |- _ => destruct (IH _ _ H) as [-> ->] end. auto.
  - intros f fr s m c r fr' s1 t1 v s2 t2 e E _ IH1 _ IH2 t' e' H.
    inversion H; subst; same_step; try discriminate; injection Same as <- <- <- <- <-.
    + match goal with H : calls p m c s1 _ _ |- _ => destruct (IH1 _ _ H) as [-> X] end. injection X as <- <-.
      match goal with H : runs p fr' _ _ _ |- _ => destruct (IH2 _ _ H) as [-> ->] end. auto.
    + match goal with H : calls p m c s1 _ _ |- _ => destruct (IH1 _ _ H) as [_ X] end. discriminate X.
  - intros f fr s m c r fr' s1 t1 e s2 E _ IH1 t' e' H.
    inversion H; subst; same_step; try discriminate; injection Same as <- <- <- <- <-.
    + match goal with H : calls p m c s1 _ _ |- _ => destruct (IH1 _ _ H) as [_ X] end. discriminate X.
    + match goal with H : calls p m c s1 _ _ |- _ => destruct (IH1 _ _ H) as [-> X] end. injection X as <- <-. auto.
  - intros m b c s fr s1 t v s2 s3 Im En _ IH L t' e' H.
    inversion H as [? b' ? ? fr' s1' ? ? s2' s3' Im' En' Hr' L'|? b' ? ? fr' s1' ? ? s2' s3' Im' En' Hr' L'|]; subst;
      rewrite Im in *; try discriminate; injection Im' as <-;
      assert (X : fr' = fr /\ s1' = s1);
      try (clear - En En'; apply enters_inv in En, En'; destruct En as (ti & ai & A & B & C & D);
           destruct En' as (ti' & ai' & A' & B' & C' & D');
           rewrite A in A'; injection A' as <-; rewrite C in C'; injection C' as C' <-; rewrite D, D', C'; auto);
      destruct X as [-> ->]; destruct (IH _ _ Hr') as [-> X]; try discriminate X; injection X as <- <-.
    unfold leaves in *. split; congruence.
  - intros m b c s fr s1 t v s2 s3 Im En _ IH L t' e' H.
    inversion H as [? b' ? ? fr' s1' ? ? s2' s3' Im' En' Hr' L'|? b' ? ? fr' s1' ? ? s2' s3' Im' En' Hr' L'|]; subst;
      rewrite Im in *; try discriminate; injection Im' as <-;
      assert (X : fr' = fr /\ s1' = s1);
      try (clear - En En'; apply enters_inv in En, En'; destruct En as (ti & ai & A & B & C & D);
           destruct En' as (ti' & ai' & A' & B' & C' & D');
           rewrite A in A'; injection A' as <-; rewrite C in C'; injection C' as C' <-; rewrite D, D', C'; auto);
      destruct X as [-> ->]; destruct (IH _ _ Hr') as [-> X]; try discriminate X; injection X as <- <-.
    unfold leaves in *. split; congruence.
  - intros m c s o text r s' Im Hv Ht E t' e' H.
    inversion H as [? b' ? ? fr' s1' ? ? s2' s3' Im' En' Hr' L'|? b' ? ? fr' s1' ? ? s2' s3' Im' En' Hr' L'
                   |? ? ? o' text' r' s2' Im' Hv' Ht' E']; subst; try congruence.
    assert (o' = o). { apply variable_cell_get in Hv, Hv'. congruence. } subst o'.
    assert (text' = text).
    { destruct Ht as (S1 & _ & D1), Ht' as (S2 & _ & D2). rewrite D1 in D2. injection D2 as D2.
      pose proof (utf16_decode_encode _ S1). pose proof (utf16_decode_encode _ S2). congruence. }
    subst text'. split; congruence.
Qed.

(** ** Console output at every moment *)

Lemma split_first {A} (a : A) t t1 x t2 : a :: t = t1 ++ x :: t2 ->
  (t1 = [] /\ a = x /\ t = t2) \/ exists t1', t1 = a :: t1' /\ t = t1' ++ x :: t2.
Proof. destruct t1 as [|y t1]; cbn; intro H; injection H as <- H; eauto. Qed.
Lemma split_app {A} (l l' t1 : list A) x t2 : l ++ l' = t1 ++ x :: t2 ->
  (exists r, l = t1 ++ x :: r /\ t2 = r ++ l') \/ exists q, t1 = l ++ q /\ l' = q ++ x :: t2.
Proof.
  revert t1. induction l as [|a l IH]; intros t1 H; cbn in H.
  - right. exists t1. auto.
  - apply split_first in H. destruct H as [(-> & -> & <-)|(t1' & -> & H)].
    + left. exists l. auto.
    + destruct (IH _ H) as [(r & -> & ->)|(q & -> & ->)]; [left; exists r|right; exists q]; auto.
Qed.

Definition out (s : machine) : list N := c_output (x_vm s).
Lemma step_out f p fr s : match step f p fr s with Ok _ s' | Err _ s' => out s' = out s | _ => True end.
Proof. pose proof (step_quiet f p fr s) as H. destruct (step f p fr s); auto; exact (proj1 H). Qed.

Theorem runs_output p :
  (forall fr s t e, runs p fr s t e -> forall t1 fr' s' t2, t = t1 ++ At fr' s' :: t2 -> out s' = out s ++ written t1) /\
  (forall m c s t e, calls p m c s t e -> forall t1 fr' s' t2, t = t1 ++ At fr' s' :: t2 -> out s' = out s ++ written t1).
Proof.
  apply (traces_ind p
    (fun fr s t e _ => forall t1 fr' s' t2, t = t1 ++ At fr' s' :: t2 -> out s' = out s ++ written t1)
    (fun m c s t e _ => forall t1 fr' s' t2, t = t1 ++ At fr' s' :: t2 -> out s' = out s ++ written t1)).
  - intros f fr s e s' E t1 f2 s2 t2 H. apply split_first in H. destruct H as [(-> & H & _)|(t1' & _ & H)].
    + injection H as <- <-. now rewrite app_nil_r.
    + destruct t1'; discriminate H.
  - intros f fr s v s' E t1 f2 s2 t2 H. apply split_first in H. destruct H as [(-> & H & _)|(t1' & _ & H)].
    + injection H as <- <-. now rewrite app_nil_r.
    + destruct t1'; discriminate H.
  - intros f fr s fr' s' t e E _ IH t1 f2 s2 t2 H. apply split_first in H. destruct H as [(-> & H & _)|(t1' & -> & H)].
    + injection H as <- <-. now rewrite app_nil_r.
    + rewrite (IH _ _ _ _ H). cbn [written]. pose proof (step_out f p fr s) as O. rewrite E in O. now rewrite O.
  - intros f fr s m c r fr' s1 t1 v s2 t2 e E Hc IH1 _ IH2 u1 f3 s3 u2 H.
    pose proof (step_out f p fr s) as O. rewrite E in O.
    apply split_first in H. destruct H as [(-> & H & _)|(t1' & -> & H)].
    + injection H as <- <-. now rewrite app_nil_r.
    + cbn [written]. apply split_app in H. destruct H as [(q & -> & ->)|(q & -> & ->)].
      * rewrite (IH1 _ _ _ _ eq_refl). now rewrite O.
      * rewrite (IH2 _ _ _ _ eq_refl). destruct (proj2 (runs_prints p) _ _ _ _ _ Hc) as [P _]. cbn [final] in P.
        change (out (with_operands s2 (then_push (then_push (x_operands s2) v) r))) with (out s2).
        unfold out in *. now rewrite P, O, written_app, app_assoc.
  - intros f fr s m c r fr' s1 t1 e s2 E Hc IH1 u1 f3 s3 u2 H.
    pose proof (step_out f p fr s) as O. rewrite E in O.
    apply split_first in H. destruct H as [(-> & H & _)|(t1' & -> & H)].
    + injection H as <- <-. now rewrite app_nil_r.
    + cbn [written]. rewrite (IH1 _ _ _ _ H). now rewrite O.
  - intros m b c s fr s1 t v s2 s3 _ En _ IH _ t1 f4 s4 t2 H. rewrite (IH _ _ _ _ H).
    unfold out. now rewrite (enters_vm _ _ _ _ _ _ En).
  - intros m b c s fr s1 t v s2 s3 _ En _ IH _ t1 f4 s4 t2 H. rewrite (IH _ _ _ _ H).
    unfold out. now rewrite (enters_vm _ _ _ _ _ _ En).
  - intros m c s o text r s' _ _ _ _ t1 f4 s4 t2 H. destruct t1 as [|x [|y t1]]; discriminate H.
Qed.

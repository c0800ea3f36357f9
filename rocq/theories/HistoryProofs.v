(** Every runtime that has been started and used is consistent. *)
From Coq Require Import NArith String List Bool Lia Arith.
From Coq.Strings Require Import Byte.
From Verif Require Import Base BaseFacts Runtime Loader SpecRuntime RuntimeInv Value Gc Interp SpecHistory VmFacts.
Import ListNotations.
Open Scope N_scope.

Lemma empty_consistent p paths : consistent p (empty_vm paths).
Proof.
  split; cbn; auto.
  - intros i ti H. destruct i; discriminate.
  - intros _. reflexivity.
  - intros n ti [].
  - intros a ai H. destruct a; discriminate.
Qed.

Lemma load_path_pres p fs fuel path s :
  pres p evolves s (load_path fuel p fs path)
    (fun a s' => alive s' a /\ exists l, c_assemblies s' = c_assemblies s ++ l ++ [a]).
Proof. unfold load_path. destruct (fs _ _); try (apply pres_fail; pr). apply load_data_pres. Qed.

Lemma load_assembly_pres p fs fuel n s :
  pres p evolves s (load_assembly fuel p fs n)
    (fun a s' => alive s' a /\ exists l, c_assemblies s' = c_assemblies s ++ l ++ [a]).
Proof.
  unfold load_assembly. eapply pres_bind with (Q := fun y s' => s' = s /\ y = s); [pr|intro; cbn; auto using evolves_refl|].
  intros y s' _ _ [-> ->].
  eapply pres_bind with (Q := fun _ s' => s' = s); [pr|apply pres_ok_or; [pr|auto]|]. intros path s' _ _ ->.
  apply load_path_pres.
Qed.

Lemma pres_run_ok {A} p R s (m : M vm A) Q a s' :
  pres p R s m Q -> consistent p s -> m s = Ok a s' -> consistent p s' /\ R s s' /\ Q a s'.
Proof. intros H W E. specialize (H W). now rewrite E in H. Qed.
Lemma pres_run_err {A} p R s (m : M vm A) Q e s' :
  pres p R s m Q -> consistent p s -> m s = Err e s' -> consistent p s' /\ R s s'.
Proof. intros H W E. specialize (H W). now rewrite E in H. Qed.

Lemma event_ok p fs s s' : consistent p s -> event p fs s s' -> consistent p s' /\ grows s s'.
Proof.
  intros W H.
  assert (EG : consistent p s' /\ evolves s s' -> consistent p s' /\ grows s s')
    by (intros []; split; [assumption|now apply evolves_grows]).
  destruct H; lazymatch goal with _ : execute _ _ _ _ _ = _ |- _ => idtac | _ => apply EG end.
  - destruct (pres_run_ok _ _ _ _ _ _ _ (load_data_pres p fs fuel data s) W H) as (A & B & _). auto.
  - exact (pres_run_err _ _ _ _ _ _ _ (load_data_pres p fs fuel data s) W H).
  - destruct (pres_run_ok _ _ _ _ _ _ _ (load_path_pres p fs fuel _ s) W H) as (A & B & _). auto.
  - exact (pres_run_err _ _ _ _ _ _ _ (load_path_pres p fs fuel _ s) W H).
  - destruct (pres_run_ok _ _ _ _ _ _ _ (load_assembly_pres p fs fuel n s) W H) as (A & B & _). auto.
  - exact (pres_run_err _ _ _ _ _ _ _ (load_assembly_pres p fs fuel n s) W H).
  - destruct (pres_run_ok _ _ _ _ _ _ _ (array_of_pres p s t) W H) as (A & B & _). split; [exact A|].
    now apply appends_evolves.
  - exact (execute_ok _ _ _ _ _ _ _ W H).
Qed.

Lemma later_ok p fs s s' : later p fs s s' -> consistent p s -> consistent p s' /\ grows s s'.
Proof.
  induction 1 as [s|s s1 s2 _ IH E]; intro W; [auto using grows_refl|].
  destruct (IH W) as [W1 E1]. destruct (event_ok _ _ _ _ W1 E) as [W2 E2]. split; [exact W2|].
  eapply grows_trans; eauto.
Qed.

Lemma later_trans p fs a b c : later p fs a b -> later p fs b c -> later p fs a c.
Proof. intros H K. revert H. induction K as [|x y z K IH E]; intro H1; [exact H1|]. exact (later_then _ _ _ _ _ (IH H1) E). Qed.

Lemma new_runtime_ok p fs fuel paths rt con s :
  new_runtime fuel p fs paths rt con = Ok tt s ->
  consistent p s /\ c_paths s = paths /\ c_output s = [] /\ exists q, c_primitives s = Some q.
Proof.
  unfold new_runtime. intro H.
  assert (P : pres p evolves (empty_vm paths) (fun s => Ok tt s) (fun _ _ => True)) by (intro; auto using evolves_refl).
  pose proof (empty_consistent p paths) as W0.
  assert (L : forall d s0, pres p evolves s0 (load_data fuel p fs d) (fun _ _ => True)).
  { intros d s0. eapply pres_weaken; [apply load_data_pres|auto]. }
  assert (G : forall x s0, pres p evolves s0 (named x) (fun t s' => s' = s0 /\ v_ref s' t)).
  { intros x s0. eapply pres_weaken; [apply pres_named; pr|]. intros t s' _ _ [-> Hl]. split; [reflexivity|].
    exact (latest_valid _ _ _ Hl). }
  apply bind_inv_ok in H as (a1 & s1 & H1 & H).
  destruct (pres_run_ok _ _ _ _ _ _ _ (L _ _) W0 H1) as (W1 & E1 & _).
  apply bind_inv_ok in H as (a2 & s2 & H2 & H).
  destruct (pres_run_ok _ _ _ _ _ _ _ (L _ _) W1 H2) as (W2 & E2 & _).
  do 11 (let t := fresh "t" in let s' := fresh "s'" in let Ht := fresh "Ht" in let V := fresh "V" in
    apply bind_inv_ok in H as (t & s' & Ht & H);
    destruct (pres_run_ok _ _ _ _ _ _ _ (G _ _) W2 Ht) as (_ & _ & -> & V); clear Ht).
  cbn in H. injection H as <-. pose proof (evolves_trans _ _ _ E1 E2) as E. destruct E as [ep eo _ _ _ _]. cbn in ep, eo.
  split; [|split; [|split]]; cbn; auto.
  - destruct W2 as []. split; cbn [c_types c_next_id c_type_map c_arena c_assemblies c_primitives set_primitives]; auto.
    repeat split; assumption.
  - eauto.
Qed.

Lemma history_ok p fs paths s : history p fs paths s ->
  consistent p s /\ c_paths s = paths /\ exists q, c_primitives s = Some q.
Proof.
  intros (fuel & rt & con & s0 & H & L). destruct (new_runtime_ok _ _ _ _ _ _ _ H) as (W & P & _ & q & Q).
  destruct (later_ok _ _ _ _ L W) as [W' [e1 e2 e3 e4 e5 e6]]. split; [exact W'|]. split; [congruence|]. exists q. congruence.
Qed.

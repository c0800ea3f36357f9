(** Loads and their fuel: with more of it they give the same. *)
From Coq Require Import NArith Arith Lia String List Bool.
From Coq.Strings Require Import Byte.
From Verif Require Import Base BaseFacts Metadata Runtime Loader Value Gc Interp Host TraceFacts.
Import ListNotations.
Open Scope N_scope.

Lemma refines_iter_m {S A} (f f' : A -> M S unit) : (forall x, refines (f x) (f' x)) -> forall l, refines (iter_m f l) (iter_m f' l).
Proof. intro H. induction l as [|x l IH]; cbn [iter_m]; [apply refines_refl|]. apply refines_bind; [apply H|intro; exact IH]. Qed.
Lemma refines_unwrap_result {S A} (m m' : M S A) : refines m m' -> refines (unwrap_result m) (unwrap_result m').
Proof. intros H s. unfold unwrap_result. destruct (H s) as [E|E]; rewrite E; auto. Qed.
Lemma refines_drop a m m' : refines m m' -> refines (drop_on_error a m) (drop_on_error a m').
Proof. intros H s. unfold drop_on_error. destruct (H s) as [E|E]; rewrite E; auto. Qed.

Section Fuel.
  Variables (p : profile) (fs : file_system).

  Lemma refines_load_fields md t f f' : (f <= f')%nat -> forall n i o, refines (load_fields f p md t n i o) (load_fields f' p md t n i o).
  Proof.
    intro L. induction n as [|n IH]; intros i o; cbn [load_fields]; [apply refines_refl|].
    apply refines_seq. intro fi. apply refines_seq. intros _. apply refines_seq. intro ti. apply refines_seq. intros _.
    apply refines_bind; [now apply refines_type_size|]. intro sz. apply refines_seq. intro o'. apply IH.
  Qed.
  Lemma refines_resolve_fields md t i f f' : (f <= f')%nat -> refines (resolve_fields f p md t i) (resolve_fields f' p md t i).
  Proof.
    intro L. unfold resolve_fields. apply refines_seq. intro def. apply refines_seq. intro count. apply refines_seq. intros _. cbv zeta.
    apply refines_seq. intro stop. apply refines_seq. intro ti. apply refines_bind.
    - destruct (ti_base ti); [now apply refines_type_size|apply refines_refl].
    - intro o. apply refines_seq. intros _. now apply refines_load_fields.
  Qed.
  Lemma refines_resolve md t i f f' : (f <= f')%nat -> refines (resolve f p md t i) (resolve f' p md t i).
  Proof.
    intro L. unfold resolve. apply refines_seq. intros _. apply refines_seq. intros _.
    apply refines_bind; [now apply refines_resolve_fields|intro; apply refines_refl].
  Qed.
  Lemma refines_resolve_types md f f' : (f <= f')%nat -> forall ts i, refines (resolve_types f p md ts i) (resolve_types f' p md ts i).
  Proof.
    intro L. induction ts as [|t ts IH]; intro i; cbn [resolve_types]; [apply refines_refl|].
    apply refines_bind; [now apply refines_resolve|intro; apply IH].
  Qed.
  Lemma refines_load_contents md a f f' : (f <= f')%nat -> refines (load_contents f p md a) (load_contents f' p md a).
  Proof.
    intro L. unfold load_contents. apply refines_seq. intro ts. apply refines_bind; [now apply refines_resolve_types|intro; apply refines_refl].
  Qed.
  Lemma refines_load_data : forall f f' data, (f <= f')%nat -> refines (load_data f p fs data) (load_data f' p fs data).
  Proof.
    induction f as [|f IH]; intros [|f'] data L; cbn [load_data]; try apply refines_nofuel; [lia|].
    apply refines_seq. intro md. apply refines_seq. intro row. apply refines_seq. intro n. apply refines_bind.
    - apply refines_iter_m. intro r. apply refines_seq. intro rn. apply refines_seq. intro s. destruct (loaded _ _ rn); [apply refines_refl|].
      apply refines_seq. intro path. destruct (fs (fst path) (snd path)); try apply refines_refl.
      apply refines_bind; [apply IH; lia|intro; apply refines_refl].
    - intros _. apply refines_seq. intro ms. apply refines_seq. intro ts. apply refines_seq. intro a. apply refines_drop, refines_load_contents. lia.
  Qed.
  Lemma refines_load_path f f' path : (f <= f')%nat -> refines (load_path f p fs path) (load_path f' p fs path).
  Proof. intro L. unfold load_path. destruct (fs (fst path) (snd path)); try apply refines_refl. now apply refines_load_data. Qed.
  Lemma refines_new_runtime paths rt con f f' : (f <= f')%nat ->
    refines (fun _ : vm => new_runtime f p fs paths rt con) (fun _ => new_runtime f' p fs paths rt con).
  Proof.
    intros L s. unfold new_runtime. match goal with |- ?m _ = _ \/ ?m' _ = _ => assert (R : refines m m'); [|exact (R (empty_vm paths))] end.
    apply refines_bind; [now apply refines_load_data|intros _]. apply refines_bind; [now apply refines_load_data|intros _]. apply refines_refl.
  Qed.
  Lemma refines_execute f f' m args : (f <= f')%nat -> refines (execute f p m args) (execute f' p m args).
  Proof.
    intros L s. unfold execute. destruct (negb (mt_static m)); [now right|].
    destruct (refines_invoke (run f p) (run f' p) m CHost (fun fr => refines_run p f f' fr L) (new_machine s args)) as [H|H]; rewrite H; auto.
  Qed.
  Lemma refines_test_program paths rt con arg f f' : (f <= f')%nat -> test_program f p fs paths rt con arg <> NoFuel ->
    test_program f' p fs paths rt con arg = test_program f p fs paths rt con arg.
  Proof.
    intros L N. unfold test_program in *. match goal with N : ?m ?s <> _ |- ?m' ?s = _ => assert (R : refines m m'); [|destruct (R s); [contradiction|assumption]] end.
    apply refines_bind; [apply refines_unwrap_result; now apply refines_new_runtime|intros _].
    apply refines_seq. intro path. apply refines_bind; [apply refines_unwrap_result; now apply refines_load_path|intro a].
    apply refines_seq. intro ai. apply refines_seq. intro m. apply refines_bind; [now apply refines_execute|intro; apply refines_refl].
  Qed.
End Fuel.

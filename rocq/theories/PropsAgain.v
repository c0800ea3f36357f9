(** Executing a method more than once. *)
From Coq Require Import NArith ZArith Lia String List Bool.
From Coq.Strings Require Import Byte.
From Verif Require Import Base BaseFacts Runtime Loader Value Gc Opcodes Interp SpecAgain SpecRuntime SpecHistory HistoryProofs AgainFacts DemoImages DemoStates DemoRuns PropsFrames PropsRegistry.
Import ListNotations.
Open Scope N_scope.

Lemma used_ext p s s' : used p s s' -> ext s s'.
Proof.
  induction 1 as [s|fuel m params r s s1 s2 E U IH|t u s s1 s2 E U IH]; [apply ext_refl| |].
  - pose proof (stv_execute fuel p m params s) as H. rewrite E in H. destruct H as (d & X & _). exact (ext_trans _ _ _ X IH).
  - pose proof (stv_array_of p t s) as H. rewrite E in H. destruct H as (d & X & _). exact (ext_trans _ _ _ X IH).
Qed.
Lemma said_prints w d : only_prints d w (said w d).
Proof. repeat split. Qed.
Lemma more_fuel p fuel fuel' m params s r s' : execute fuel p m params s = Ok r s' -> (fuel <= fuel')%nat -> execute fuel' p m params s = Ok r s'.
Proof. intros E L. rewrite <- E. apply C54_budget; [congruence|exact L]. Qed.

Lemma map_kept p s s' n : consistent p s -> consistent p s' -> (exists l, c_types s' = c_types s ++ l) ->
  (forall j x, (List.length (c_types s) <= j)%nat -> nth_error (c_types s') j = Some x -> ti_full_name x <> n) ->
  map_get bytes_eqb n (c_type_map s') = map_get bytes_eqb n (c_type_map s).
Proof.
  intros W W' [l L] New. pose proof (map_ok _ _ W n) as A. pose proof (map_ok _ _ W' n) as B.
  destruct (map_get bytes_eqb n (c_type_map s)) as [i|], (map_get bytes_eqb n (c_type_map s')) as [j|].
  - destruct A as [(ti & Ei & Ni) Ai], B as [(tj & Ej & Nj) Bj]. f_equal.
    assert (Ej' : nth_error (c_types s) j = Some tj).
    { destruct (Nat.lt_ge_cases j (List.length (c_types s))) as [J|J]; [|now destruct (New _ _ J Ej)].
      now rewrite L, nth_error_app1 in Ej. }
    assert (Ei' : nth_error (c_types s') i = Some ti) by (rewrite L, nth_error_app1; [exact Ei|apply nth_error_Some; congruence]).
    destruct (Nat.lt_trichotomy i j) as [X|[X|X]]; [now destruct (Ai _ _ X Ej')|congruence|now destruct (Bj _ _ X Ei')].
  - destruct A as [(ti & Ei & Ni) _]. destruct (B ti); [rewrite L; apply in_or_app; left; exact (nth_error_In _ _ Ei)|exact Ni].
  - destruct B as [(tj & Ej & Nj) _]. destruct (Nat.lt_ge_cases j (List.length (c_types s))) as [J|J]; [|now destruct (New _ _ J Ej)].
    rewrite L, nth_error_app1 in Ej by exact J. now destruct (A tj (nth_error_In _ _ Ej)).
  - reflexivity.
Qed.
Lemma later_has p fs paths s s' : history p fs paths s -> later p fs s s' -> new_names s s' -> has s s'.
Proof.
  intros H L New. destruct (history_ok _ _ _ _ H) as (W & _). destruct (later_ok _ _ _ _ L W) as [W' _].
  destruct (C31_registered_types_stay _ _ _ _ _ H L) as (T & _ & A & Q & _).
  constructor; [exact A|intros q E; now rewrite Q|exact T| |].
  - intros n t U E. pose proof (map_ok _ _ W n) as Ln. rewrite E in Ln. destruct Ln as [(ti & Ei & Ni) _].
    rewrite (map_kept p s s' n W W' T); [exact E|]. intros j x J Ej X.
    apply (proj2 (New j x J Ej)) with (i := t) (y := ti); [now rewrite X|exact Ei|congruence].
  - intro E. rewrite (map_kept p s s' _ W W' T); [exact E|]. intros j x J Ej. exact (proj1 (New j x J Ej)).
Qed.

(** ** C92 *)

(** Once a method has been executed, executing it again with the same arguments has the same result, the same effect on
    the host's array of parameters and the same text, whatever other executions have taken place in between, and
    changes nothing but the output. *)
Theorem C92_again : forall p fuel m params r s s1 s2, execute fuel p m params s = Ok r s1 -> used p s1 s2 ->
  exists text s3, c_output s1 = c_output s ++ text /\ only_prints text s2 s3 /\
    forall fuel', (fuel <= fuel')%nat -> execute fuel' p m params s2 = Ok r s3.
Proof.
  intros p fuel m params r s s1 s2 E U. pose proof (stv_execute fuel p m params s) as H. rewrite E in H.
  destruct H as (d & X & O & G). exists d, (said s2 d). split; [exact O|]. split; [apply said_prints|].
  intros fuel' L. apply (more_fuel p fuel); [|exact L]. apply G, ext_has, (used_ext p), U.
Qed.

(** The same when further assemblies have been loaded, or loads have failed, in between, unless these define
    types with the names of array types or of types of the class library that were there before. *)
Theorem C92_loads : forall p fs paths fuel m params r s s1 s2, history p fs paths s -> execute fuel p m params s = Ok r s1 ->
  later p fs s1 s2 -> new_names s1 s2 ->
  exists text s3, c_output s1 = c_output s ++ text /\ only_prints text s2 s3 /\
    forall fuel', (fuel <= fuel')%nat -> execute fuel' p m params s2 = Ok r s3.
Proof.
  intros p fs paths fuel m params r s s1 s2 Hs E L New. pose proof (stv_execute fuel p m params s) as H. rewrite E in H.
  destruct H as (d & X & O & G). exists d, (said s2 d). split; [exact O|]. split; [apply said_prints|].
  intros fuel' F. apply (more_fuel p fuel); [|exact F]. apply G, (later_has p fs paths); [|exact L|exact New].
  destruct Hs as (f & rt & con & s0 & N & L0). exists f, rt, con, s0. split; [exact N|].
  eapply later_then; [exact L0|]. eapply ev_execute. exact E.
Qed.

(** An execution that creates no array type is not affected by earlier executions. *)
Theorem C92_before : forall p fuel m params r s s1 s2, execute fuel p m params s = Ok r s1 ->
  List.length (c_types s1) = List.length (c_types s) -> used p s s2 ->
  exists text s3, only_prints text s s1 /\ only_prints text s2 s3 /\
    forall fuel', (fuel <= fuel')%nat -> execute fuel' p m params s2 = Ok r s3.
Proof.
  intros p fuel m params r s s1 s2 E L U. pose proof (stv_execute fuel p m params s) as H. rewrite E in H.
  destruct H as (d & X & O & G). destruct (e_same _ _ X L) as [Em En]. destruct X as [X1 X2 X3 X4 [l X5] X6 X7 X8].
  assert (l = []) as -> by (rewrite X5, app_length in L; destruct l; [reflexivity|cbn in L; lia]). rewrite app_nil_r in X5.
  exists d, (said s2 d). split; [repeat split; assumption|]. split; [apply said_prints|].
  intros fuel' F. apply (more_fuel p fuel); [|exact F]. apply G, ext_has. destruct (used_ext p s s2 U) as [Y1 Y2 Y3 Y4 Y5 Y6 Y7 Y8].
  constructor; try congruence; rewrite ?X5, ?Em, ?En; assumption.
Qed.

(** Executions leave the assemblies and the types that are there already alone: they add array types, at the end. *)
Theorem C92_kept : forall p s s', used p s s' ->
  c_paths s' = c_paths s /\ c_assemblies s' = c_assemblies s /\ c_arena s' = c_arena s /\ c_primitives s' = c_primitives s /\
  (exists l, c_types s' = c_types s ++ l) /\
  forall n t, map_get bytes_eqb n (c_type_map s) = Some t -> map_get bytes_eqb n (c_type_map s') = Some t.
Proof. intros p s s' U. destruct (used_ext p s s' U) as [Y1 Y2 Y3 Y4 Y5 Y6 Y7 Y8]. repeat split; assumption. Qed.

(** The method Get of the second application with other code: make an array of as many strings as the first argument
    says, and return the second argument. *)
Definition strings : method_info :=
  let m := lab "Get" in
  mkMethod (mt_name m) (mt_declaring m) (mt_return m) (mt_params m)
    (IIL (mkBody [x02; x8d; x03; x00; x00; x01; x26; x03; x2a] 8 [] false [])) true false false.

(** It creates the type of arrays of strings; then Hello prints; then it is executed again. *)
Example C92_ex p : exists r s1 r' s2, execute 100 p strings (ints [10; 9]%Z) demo_lab = Ok r s1 /\
  execute 100 p (lab "Hello") [] s1 = Ok r' s2 /\ used p s1 s2 /\ r = (RValue (VInt I32 9), ints [10; 9]%Z) /\
  (List.length (c_types s1) = S (List.length (c_types demo_lab))) /\ c_output s2 <> c_output s1 /\
  execute 100 p strings (ints [10; 9]%Z) s2 = Ok r s2.
Proof.
  assert (C : exists r s1 r' s2, execute 100 p strings (ints [10; 9]%Z) demo_lab = Ok r s1 /\
    execute 100 p (lab "Hello") [] s1 = Ok r' s2 /\ r = (RValue (VInt I32 9), ints [10; 9]%Z) /\
    (List.length (c_types s1) = S (List.length (c_types demo_lab))) /\ c_output s2 <> c_output s1 /\
    execute 100 p strings (ints [10; 9]%Z) s2 = Ok r s2).
  { do 4 eexists. destruct p; (do 4 (split; [vm_compute; reflexivity|])); (split; [vm_compute; discriminate|vm_compute; reflexivity]). }
  destruct C as (r & s1 & r' & s2 & E & E' & R). exists r, s1, r', s2. split; [exact E|]. split; [exact E'|].
  split; [eapply used_execute; [exact E'|apply used_not]|exact R].
Qed.

(** The other application is loaded after Hello: its types have new names. *)
Example C92_loads_ex p : exists r s1 a s2, history p no_files [] demo_lab /\ execute 100 p (lab "Hello") [] demo_lab = Ok r s1 /\
  load_data 10 p no_files app_image s1 = Ok a s2 /\ later p no_files s1 s2 /\ new_names s1 s2 /\
  (List.length (c_types s1) < List.length (c_types s2))%nat.
Proof.
  assert (C : exists r s1 a s2, execute 100 p (lab "Hello") [] demo_lab = Ok r s1 /\ load_data 10 p no_files app_image s1 = Ok a s2 /\
    forallb (fun x => negb (bytes_eqb (ti_full_name x) (bytes_of_string "System.Void")) &&
      (bytes_eqb (ti_full_name x) (bytes_of_string "<Module>") ||
       forallb (fun y => negb (bytes_eqb (ti_full_name x) (ti_full_name y))) (c_types s1))) (skipn (List.length (c_types s1)) (c_types s2)) = true /\
    (List.length (c_types s1) < List.length (c_types s2))%nat).
  { do 4 eexists. destruct p; (do 3 (split; [vm_compute; reflexivity|])); vm_compute; lia. }
  destruct C as (r & s1 & a & s2 & E & E' & F & L). exists r, s1, a, s2. split; [apply demo_lab_history|]. split; [exact E|]. split; [exact E'|].
  split; [eapply later_then; [apply later_now|]; eapply ev_load; exact E'|]. split; [|exact L].
  intros j x J Ej. rewrite forallb_forall in F.
  assert (Ix : In x (skipn (List.length (c_types s1)) (c_types s2))).
  { apply (nth_error_In _ (j - List.length (c_types s1))). rewrite <- Ej. rewrite <- (firstn_skipn (List.length (c_types s1)) (c_types s2)) at 2.
    rewrite nth_error_app2; rewrite firstn_length_le by lia; [reflexivity|exact J]. }
  specialize (F x Ix). apply andb_true_iff in F as [F1 F2]. split.
  - intro X. rewrite X in F1. discriminate F1.
  - intros U i y Ey X. apply orb_true_iff in F2 as [F2|F2].
    { apply bytes_eqb_spec in F2. rewrite F2 in U. destruct U as [[e U]|[e U]]; [discriminate U|].
      apply (f_equal (@rev byte)) in U. rewrite rev_app_distr in U. discriminate U. }
    rewrite forallb_forall in F2. specialize (F2 y (nth_error_In _ _ Ey)). rewrite X, bytes_eqb_refl in F2. discriminate F2.
Qed.

(** Hello creates no type; after the execution of the other method it prints the same as before. *)
Example C92_before_ex p : exists r s1 r' s2, execute 100 p (lab "Hello") [] demo_lab = Ok r s1 /\
  List.length (c_types s1) = List.length (c_types demo_lab) /\
  execute 100 p strings (ints [10; 9]%Z) demo_lab = Ok r' s2 /\ used p demo_lab s2 /\
  List.length (c_types s2) = S (List.length (c_types demo_lab)) /\ c_output s1 = [97; 97; 233; 128512; 233; 128512].
Proof.
  assert (C : exists r s1 r' s2, execute 100 p (lab "Hello") [] demo_lab = Ok r s1 /\
    List.length (c_types s1) = List.length (c_types demo_lab) /\
    execute 100 p strings (ints [10; 9]%Z) demo_lab = Ok r' s2 /\
    List.length (c_types s2) = S (List.length (c_types demo_lab)) /\ c_output s1 = [97; 97; 233; 128512; 233; 128512]).
  { do 4 eexists. destruct p; repeat (split; [vm_compute; reflexivity|]); vm_compute; reflexivity. }
  destruct C as (r & s1 & r' & s2 & E & L & E' & R). exists r, s1, r', s2. split; [exact E|]. split; [exact L|]. split; [exact E'|].
  split; [eapply used_execute; [exact E'|apply used_not]|exact R].
Qed.

Print Assumptions C92_again.
Print Assumptions C92_loads.
Print Assumptions C92_before.
Print Assumptions C92_kept.

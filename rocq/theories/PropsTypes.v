(** Properties C36 and C37: the layout of objects and the subtype relation. *)
From Coq Require Import NArith String List Bool Lia Arith.
From Coq.Strings Require Import Byte.
From Verif Require Import Base BaseFacts Runtime Loader SpecRuntime RuntimeInv SpecHistory HistoryProofs InterpInv TypeFacts
  DemoImages DemoStates ZooImages ZooStates LayoutFacts SpecTypes SpecLayout.
Import ListNotations.
Open Scope N_scope.

(** ** C36 *)

(** For every class whose instance fields, its own and the inherited ones, are all of value types
    that were registered before the class, in every history of a runtime: the size of an object is
    the sum of the sizes of its fields, every field lies inside, and every field ends before the
    next one begins.  In a release build the size must be below [2^64], where sums wrap.  Missing
    for the full property: fields that hold references, static fields between instance fields, and
    value types that are declared after their use; see the refutations below. *)
Theorem C36_fields_apart_partial p fs paths s t l n :
  history p fs paths s -> layout (c_types s) t l n -> (p = Release -> n < 2 ^ 64) ->
  (forall fuel m s', type_size fuel p t s = Ok m s' -> m = n) /\
  (forall i f k, nth_error l i = Some f -> takes (c_types s) (f_type f) k -> f_offset f + k <= n) /\
  (forall i j f g k, (i < j)%nat -> nth_error l i = Some f -> nth_error l j = Some g ->
     takes (c_types s) (f_type f) k -> f_offset f + k <= f_offset g).
Proof.
  intros H La B. split.
  - intros fuel m s' E. destruct (history_ok _ _ _ _ H) as (W & _).
    destruct (type_size_run _ _ W _ _ _ _ E) as (_ & k & Sk & C & D).
    assert (k = n) as -> by (eapply size_unique; [exact Sk|]; now apply (proj1 (layout_sizes _)) in La).
    destruct p; [auto|]. rewrite C. apply N.mod_small. auto.
  - exact (layout_disjoint p _ (history_laid _ _ _ _ H) _ _ _ La B).
Qed.

(** Deciding the conditions of the example. *)
Lemma no_width ts t :
  match nth_error ts t with
  | Some ti => forallb (fun w => negb (bytes_eqb (ti_full_name ti) (bytes_of_string (fst w)))) widths
  | None => true
  end = true -> forall k, ~ width ts t k.
Proof.
  intros H k (x & Hx & ti & E & N). rewrite E in H. rewrite forallb_forall in H. specialize (H _ Hx). cbn [fst] in H.
  rewrite N, bytes_eqb_refl in H. discriminate.
Qed.
Lemma named_by ts t n :
  match nth_error ts t with Some ti => bytes_eqb (ti_full_name ti) n | None => false end = true -> is_named ts t n.
Proof.
  intro H. destruct (nth_error ts t) as [ti|] eqn:E; [|discriminate]. exists ti. split; [exact E|]. now apply bytes_eqb_spec.
Qed.
Lemma based ts t b v : option_map ti_base (nth_error ts t) = Some (Some b) -> ancestor ts b v -> ancestor ts t v.
Proof.
  intros E A. destruct (nth_error ts t) as [ti|] eqn:Et; [|discriminate]. injection E as E. eapply by_base; eauto.
Qed.

(** [class Zoo.Base { long l; Pair p; }  class Zoo.Derived : Zoo.Base { byte c; int d; }] with
    [struct Zoo.Pair { int a; short b; }] in the example runtime. *)
Definition zoo_fields (t : tref) : list field_info :=
  match nth_error (c_types demo_zoo) t with Some ti => ti_fields ti | None => [] end.

Ltac zoo_struct v := exists v; split; [|apply named_by; vm_compute; reflexivity];
  repeat (first [apply itself|eapply based; [vm_compute; reflexivity|]]).
Ltac zoo_primitive x := apply takes_primitive; exists x; split; [vm_compute; tauto|apply named_by; vm_compute; reflexivity].
Lemma layout_root_by ts t n : option_map ti_base (nth_error ts t) = Some None ->
  (forall k, ~ width ts t k) -> values ts t (match nth_error ts t with Some ti => ti_fields ti | None => [] end) n ->
  layout ts t (match nth_error ts t with Some ti => ti_fields ti | None => [] end) n.
Proof. intros E W V. destruct (nth_error ts t) as [ti|] eqn:Et; [|discriminate]. injection E as E. now apply layout_root. Qed.
Lemma layout_derived_by ts t b l m n : option_map ti_base (nth_error ts t) = Some (Some b) -> (b <? t)%nat = true ->
  (forall k, ~ width ts t k) -> layout ts b l m ->
  values ts t (match nth_error ts t with Some ti => ti_fields ti | None => [] end) n ->
  layout ts t (l ++ match nth_error ts t with Some ti => ti_fields ti | None => [] end) (m + n).
Proof.
  intros E L W La V. destruct (nth_error ts t) as [ti|] eqn:Et; [|discriminate]. injection E as E.
  eapply layout_derived; eauto. now apply Nat.ltb_lt.
Qed.
Lemma value_by ts t f l k n : f_static f = false -> (f_type f <? t)%nat = true -> struct_before ts t (f_type f) ->
  takes ts (f_type f) k -> values ts t l n -> values ts t (f :: l) (k + n).
Proof. intros. constructor; auto. now apply Nat.ltb_lt. Qed.

Lemma zoo_object : layout (c_types demo_zoo) 1%nat (zoo_fields 1%nat) 0.
Proof.
  unfold zoo_fields. apply layout_root_by; [vm_compute; reflexivity|apply no_width; vm_compute; reflexivity|].
  change (values (c_types demo_zoo) 1%nat [] 0). constructor.
Qed.
Lemma zoo_value_type : layout (c_types demo_zoo) 2%nat (zoo_fields 1%nat ++ zoo_fields 2%nat) 0.
Proof.
  change 0 with (0 + 0). unfold zoo_fields at 2. eapply layout_derived_by; [vm_compute; reflexivity|vm_compute; reflexivity| |exact zoo_object|].
  - apply no_width; vm_compute; reflexivity.
  - change (values (c_types demo_zoo) 2%nat [] 0). constructor.
Qed.
Lemma zoo_pair : layout (c_types demo_zoo) 22%nat (zoo_fields 1%nat ++ zoo_fields 2%nat ++ zoo_fields 22%nat) 6.
Proof.
  change 6 with (0 + 6). rewrite app_assoc. unfold zoo_fields at 3.
  eapply layout_derived_by; [vm_compute; reflexivity|vm_compute; reflexivity| |exact zoo_value_type|].
  - apply no_width; vm_compute; reflexivity.
  - change 6 with (4 + (2 + 0)). apply value_by; [reflexivity|reflexivity| | |apply value_by; [reflexivity|reflexivity| | |constructor]].
    + zoo_struct 2%nat.
    + zoo_primitive "System.Int32"%string.
    + zoo_struct 2%nat.
    + zoo_primitive "System.Int16"%string.
Qed.
Lemma zoo_base : layout (c_types demo_zoo) 23%nat (zoo_fields 1%nat ++ zoo_fields 23%nat) 14.
Proof.
  change 14 with (0 + 14). unfold zoo_fields at 2.
  eapply layout_derived_by; [vm_compute; reflexivity|vm_compute; reflexivity| |exact zoo_object|].
  - apply no_width; vm_compute; reflexivity.
  - change 14 with (8 + (6 + 0)). apply value_by; [reflexivity|reflexivity| | |apply value_by; [reflexivity|reflexivity| | |constructor]].
    + zoo_struct 2%nat.
    + zoo_primitive "System.Int64"%string.
    + zoo_struct 2%nat.
    + exact (takes_struct _ _ _ _ zoo_pair).
Qed.
Example C36_fields_apart_ex p : history p no_files [] demo_zoo /\
  layout (c_types demo_zoo) 24%nat (zoo_fields 1%nat ++ zoo_fields 23%nat ++ zoo_fields 24%nat) 19 /\
  map f_offset (zoo_fields 1%nat ++ zoo_fields 23%nat ++ zoo_fields 24%nat) = [0; 8; 14; 15] /\
  match type_size 10 p 24%nat demo_zoo with Ok n _ => n = 19 | _ => False end.
Proof.
  split; [apply demo_zoo_history|]. split; [|split; [vm_compute; reflexivity|destruct p; vm_compute; reflexivity]].
  change 19 with (14 + 5). rewrite app_assoc. unfold zoo_fields at 3.
  eapply layout_derived_by; [vm_compute; reflexivity|vm_compute; reflexivity| |exact zoo_base|].
  - apply no_width; vm_compute; reflexivity.
  - change 5 with (1 + (4 + 0)). apply value_by; [reflexivity|reflexivity| | |apply value_by; [reflexivity|reflexivity| | |constructor]].
    + zoo_struct 2%nat.
    + zoo_primitive "System.Byte"%string.
    + zoo_struct 2%nat.
    + zoo_primitive "System.Int32"%string.
Qed.

(** The property is false for fields that hold references: [class App.Named { string name; int[]
    cells; }] has both at the same place. *)
Theorem C36_fields_apart_refuted : forall p, exists fs paths s t ti f g,
  history p fs paths s /\ nth_error (c_types s) t = Some ti /\
  nth_error (ti_fields ti) 0 = Some f /\ nth_error (ti_fields ti) 1 = Some g /\
  f_static f = false /\ f_static g = false /\
  storage (c_types s) (f_type f) 8 /\ storage (c_types s) (f_type g) 8 /\
  f_offset f = f_offset g.
Proof.
  intro p. pose proof (demo_app_history p) as H. destruct (history_ok _ _ _ _ H) as (W & _).
  assert (R : forall t, match is_reference_type 10 t demo_app with Ok b _ => b | _ => false end = true ->
              storage (c_types demo_app) t 8).
  { intros t E. destruct (is_reference_type 10 t demo_app) as [b s'| | | |] eqn:E'; try discriminate. subst b.
    apply by_reference. destruct (value_type_run _ _ _ _ _ _ W E') as [_ V]. intro X. apply V in X. discriminate. }
  exists no_files, [], demo_app, 24%nat.
  destruct (nth_error (c_types demo_app) 24) as [ti|] eqn:E; [|vm_compute in E; discriminate].
  destruct (nth_error (ti_fields ti) 0) as [f|] eqn:Ef; [|exfalso; revert Ef; vm_compute in E; injection E as <-; discriminate].
  destruct (nth_error (ti_fields ti) 1) as [g|] eqn:Eg; [|exfalso; revert Eg; vm_compute in E; injection E as <-; discriminate].
  exists ti, f, g. split; [exact H|]. split; [reflexivity|]. split; [exact Ef|]. split; [exact Eg|].
  vm_compute in E. injection E as <-. injection Ef as <-. injection Eg as <-.
  split; [reflexivity|]. split; [reflexivity|]. split; [apply R; vm_compute; reflexivity|]. split; [apply R; vm_compute; reflexivity|].
  reflexivity.
Qed.

(** A static field takes space in front of the instance fields that follow it, but is not counted
    in the size: [class Zoo.Shared { static int count; int own; }] has four bytes, and [own] begins
    behind them. *)
Theorem C36_fields_inside_refuted : forall p, exists fs paths s t ti f n,
  history p fs paths s /\ nth_error (c_types s) t = Some ti /\
  nth_error (ti_fields ti) 1 = Some f /\ f_static f = false /\
  size (c_types s) t n /\ f_offset f = n /\ storage (c_types s) (f_type f) 4.
Proof.
  intro p. pose proof (demo_zoo_history p) as H. destruct (history_ok _ _ _ _ H) as (W & _).
  assert (Z : forall t n, match type_size 10 p t demo_zoo with Ok m _ => m =? n | _ => false end = true -> n < 2 ^ 64 ->
              exists k, size (c_types demo_zoo) t k /\ computed p k n).
  { intros t n E _. destruct (type_size 10 p t demo_zoo) as [m s'| | | |] eqn:E'; try discriminate.
    apply N.eqb_eq in E as <-. destruct (type_size_run _ _ W _ _ _ _ E') as (_ & k & S & C). eauto. }
  assert (I4 : width (c_types demo_zoo) 10%nat 4).
  { exists "System.Int32"%string. split; [vm_compute; tauto|apply named_by; vm_compute; reflexivity]. }
  assert (V : value_type (c_types demo_zoo) 10%nat).
  { apply rooted_class with 2%nat; [|apply named_by; vm_compute; reflexivity].
    repeat (first [apply itself|eapply based; [vm_compute; reflexivity|]]). }
  exists no_files, [], demo_zoo, 25%nat.
  destruct (nth_error (c_types demo_zoo) 25) as [ti|] eqn:E; [|vm_compute in E; discriminate].
  assert (B : ti_base ti = Some 1%nat /\ map (fun f => (f_static f, f_type f, f_offset f)) (ti_fields ti) =
                [(true, 10%nat, 0); (false, 10%nat, 4)]) by (vm_compute in E; injection E as <-; split; reflexivity).
  destruct B as [B F]. destruct (ti_fields ti) as [|g [|f [|h l]]] eqn:Ef; try discriminate.
  cbn [map] in F. assert (F1 : f_static g = true /\ f_static f = false /\ f_type f = 10%nat /\ f_offset f = 4) by (repeat split; congruence).
  destruct F1 as (G1 & F1 & F2 & F3). exists ti, f, 4. rewrite Ef, F2, F3.
  split; [exact H|]. split; [reflexivity|]. split; [reflexivity|]. split; [exact F1|]. split; [|split; [reflexivity|]].
  - change 4 with (0 + 4 + 0). eapply size_derived; [exact E|apply no_width; vm_compute; reflexivity|exact B| |].
    + rewrite Ef. apply fields_static; [exact G1|]. apply fields_one; [exact F1| |constructor].
      rewrite F2. apply by_value; [exact V|]. now apply size_primitive.
    + exact (proj1 (layout_sizes _) _ _ _ zoo_object).
  - apply by_value; [exact V|]. now apply size_primitive.
Qed.

(** ** C37 *)

(** If the test whether [t] is an instance of [u] gives an answer, then it is yes exactly for [t]
    itself, its transitive bases, and the interfaces of the last of them.  Types are the same if
    they have the same full name.  Missing for the full property: the interfaces of types that have
    a base, see [C37_instance_of_refuted]. *)
Theorem C37_instance_of_partial fuel t u n s b s' :
  is_named (c_types s) u n -> instance_of fuel t u s = Ok b s' ->
  s' = s /\ (b = true <-> rooted (c_types s) t n).
Proof. intros U E. exact (instance_of_run _ _ _ U _ _ _ _ E). Qed.

(** An answer "yes" is always right. *)
Theorem C37_instance_of_sound fuel t u n s s' :
  is_named (c_types s) u n -> instance_of fuel t u s = Ok true s' -> instance (c_types s) t n.
Proof.
  intros U E. destruct (instance_of_run _ _ _ U _ _ _ _ E) as [_ R]. destruct (proj1 R eq_refl) as [v A N|v vi i A Ev _ Hi N].
  - now apply of_class with v.
  - now apply of_interface with v vi i.
Qed.

(** All bases are recognised, and so are interfaces if there is no base. *)
Theorem C37_instance_of_bases fuel t u n s b s' :
  is_named (c_types s) u n -> instance_of fuel t u s = Ok b s' ->
  (forall v, ancestor (c_types s) t v -> is_named (c_types s) v n -> b = true) /\
  (forall ti i, nth_error (c_types s) t = Some ti -> ti_base ti = None -> In i (ti_interfaces ti) -> is_named (c_types s) i n ->
     b = true).
Proof.
  intros U E. destruct (instance_of_run _ _ _ U _ _ _ _ E) as [_ R]. split.
  - intros v A N. apply R. now apply rooted_class with v.
  - intros ti i Et Eb Hi N. apply R. apply rooted_interface with t ti i; auto. constructor.
Qed.

(** There is an answer for every type whose chain of bases ends, in every history of a runtime.
    The walk takes one step for every base. *)
Inductive chain (ts : list type_info) : tref -> nat -> Prop :=
| chain_end t ti : nth_error ts t = Some ti -> ti_base ti = None -> chain ts t 1
| chain_base t ti u k : nth_error ts t = Some ti -> ti_base ti = Some u -> chain ts u k -> chain ts t (S k).

Lemma contains_type_answers p s u : consistent p s -> (u < List.length (c_types s))%nat ->
  forall l, Forall (fun i => (i < List.length (c_types s))%nat) l -> exists b, contains_type l u s = Ok b s.
Proof.
  intros W U. induction l as [|t l IH]; intro F; cbn [contains_type]; [eexists; reflexivity|].
  inversion F as [|? ? Ht F']; subst. destruct (IH F') as [b E].
  destruct (nth_error (c_types s) t) as [ti|] eqn:Et; [|apply nth_error_None in Et; lia].
  destruct (nth_error (c_types s) u) as [ui|] eqn:Eu; [|apply nth_error_None in Eu; lia].
  unfold bind at 1, type_eq, bind, the_type. rewrite Et, Eu. cbn [ret].
  unfold ret. destruct (bytes_eqb _ _); [eexists; reflexivity|]. exists b. exact E.
Qed.

Theorem C37_instance_of_answers p fs paths s t u k :
  history p fs paths s -> (u < List.length (c_types s))%nat -> chain (c_types s) t k ->
  forall fuel, (k <= fuel)%nat -> exists b, instance_of fuel t u s = Ok b s.
Proof.
  intros H U C. destruct (history_ok _ _ _ _ H) as (W & _).
  destruct (nth_error (c_types s) u) as [ui|] eqn:Eu; [|apply nth_error_None in Eu; lia].
  induction C as [t ti Et Eb|t ti v k Et Eb C IH]; intros [|fuel] L; try lia; cbn [instance_of];
    unfold bind at 1, type_eq, bind, the_type; rewrite Et, Eu; unfold ret at 1;
    (destruct (bytes_eqb _ _); [eexists; reflexivity|]); cbv beta iota; rewrite Et; cbv beta iota; rewrite Eb.
  - destruct (consistent_closed _ _ _ _ W Et) as (_ & F & _). exact (contains_type_answers _ _ _ W U _ F).
  - apply IH. lia.
Qed.

Example C37_instance_of_ex p : history p no_files [] demo_app /\
  (* App.Named, System.Object *)
  is_named (c_types demo_app) 1%nat (bytes_of_string "System.Object") /\
  is_named (c_types demo_app) 24%nat (bytes_of_string "App.Named") /\
  chain (c_types demo_app) 24%nat 3 /\
  match instance_of 3 24%nat 1%nat demo_app with Ok b _ => b | _ => false end = true /\
  match instance_of 3 1%nat 24%nat demo_app with Ok b _ => negb b | _ => false end = true.
Proof.
  split; [apply demo_app_history|]. split; [apply named_by; vm_compute; reflexivity|]. split; [apply named_by; vm_compute; reflexivity|].
  split; [|split; vm_compute; reflexivity].
  assert (R : forall t, option_map ti_base (nth_error (c_types demo_app) t) = Some None -> chain (c_types demo_app) t 1).
  { intros t E. destruct (nth_error (c_types demo_app) t) as [ti|] eqn:Et; [|discriminate]. injection E as E. eapply chain_end; eauto. }
  assert (D : forall t u k, option_map ti_base (nth_error (c_types demo_app) t) = Some (Some u) -> chain (c_types demo_app) u k ->
              chain (c_types demo_app) t (S k)).
  { intros t u k E C. destruct (nth_error (c_types demo_app) t) as [ti|] eqn:Et; [|discriminate]. injection E as E. eapply chain_base; eauto. }
  eapply D; [vm_compute; reflexivity|]. eapply D; [vm_compute; reflexivity|]. apply R. vm_compute. reflexivity.
Qed.

(** The property is false: [class App.Point : App.IShape] is not taken to be an instance of the
    interface, because it has a base. *)
Theorem C37_instance_of_refuted : forall p, exists fs paths s t u n,
  history p fs paths s /\ is_named (c_types s) u n /\ instance (c_types s) t n /\
  forall fuel s', instance_of fuel t u s <> Ok true s'.
Proof.
  intro p. exists no_files, [], demo_app, 23%nat, 22%nat, (bytes_of_string "App.IShape").
  pose proof (demo_app_history p) as H. destruct (history_ok _ _ _ _ H) as (W & _).
  assert (U : is_named (c_types demo_app) 22%nat (bytes_of_string "App.IShape")) by (apply named_by; vm_compute; reflexivity).
  split; [exact H|]. split; [exact U|]. split.
  - destruct (nth_error (c_types demo_app) 23) as [ti|] eqn:E; [|vm_compute in E; discriminate].
    apply of_interface with 23%nat ti 22%nat; [constructor|exact E| |exact U].
    vm_compute in E. injection E as <-. vm_compute. tauto.
  - intros fuel s' E. destruct (instance_of_run _ _ _ U _ _ _ _ E) as [_ R].
    assert (G : match instance_of 3 23%nat 22%nat demo_app with Ok b _ => negb b | _ => false end = true) by (vm_compute; reflexivity).
    destruct (instance_of 3 23%nat 22%nat demo_app) as [b s1| | | |] eqn:E'; try discriminate.
    destruct (instance_of_run _ _ _ U _ _ _ _ E') as [_ R']. rewrite (proj2 R') in G; [discriminate|]. now apply R.
Qed.

Print Assumptions C36_fields_apart_partial.
Print Assumptions C36_fields_apart_refuted.
Print Assumptions C36_fields_inside_refuted.
Print Assumptions C37_instance_of_partial.
Print Assumptions C37_instance_of_sound.
Print Assumptions C37_instance_of_bases.
Print Assumptions C37_instance_of_answers.
Print Assumptions C37_instance_of_refuted.

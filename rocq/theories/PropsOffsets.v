(** Property C36, continued: where the fields of every type are. *)
From Coq Require Import NArith String List Bool Lia Arith.
From Coq.Strings Require Import Byte.
From Verif Require Import Base Runtime Loader SpecHistory DemoStates ZooStates OffsetFacts SpecTypes SpecOffsets.
Import ListNotations.
Open Scope N_scope.

(** In every history, for every assembly that is loaded: its types were registered one behind the
    other, and the fields of each of them are where [offsets] says.  This holds for all field
    types, for static fields, for bases and field types that are declared later, and for types that
    contain themselves.  The sizes are determined by the registry, because a type has one size
    ([TypeFacts.size_unique]). *)
Theorem C36_offsets p fs paths s a ai :
  history p fs paths s -> nth_error (c_arena s) a = Some (Some ai) ->
  exists first count, a_types ai = seq first count /\
    forall t, In t (a_types ai) ->
      exists ti base sizes, nth_error (c_types s) t = Some ti /\ offsets p (c_types s) first count t ti base sizes.
Proof.
  intros H X. destruct (history_sited _ _ _ _ H _ _ X) as (m & n & T & L & F). exists m, n. split; [exact T|].
  intros t It. rewrite T in It. apply in_seq in It. destruct (nth_error (c_types s) t) as [ti|] eqn:E; [|apply nth_error_None in E; lia].
  exists ti. destruct (F t ti It E) as (o & P). destruct (put_offsets _ _ _ _ _ _ _ P) as (base & sizes & O). exists base, sizes. auto.
Qed.

(** The third assembly of the example has a class with several fields behind those of its base. *)
Example C36_offsets_ex p : history p no_files [] demo_zoo /\
  exists ai ti, nth_error (c_arena demo_zoo) 2 = Some (Some ai) /\ In 24%nat (a_types ai) /\
    nth_error (c_types demo_zoo) 24 = Some ti /\ ti_base ti = Some 23%nat /\ map f_offset (ti_fields ti) = [14; 15].
Proof.
  split; [apply demo_zoo_history|].
  destruct (nth_error (c_arena demo_zoo) 2) as [[ai|]|] eqn:E; [|vm_compute in E; discriminate|vm_compute in E; discriminate].
  destruct (nth_error (c_types demo_zoo) 24) as [ti|] eqn:F; [|vm_compute in F; discriminate].
  exists ai, ti. vm_compute in E, F. injection E as <-. injection F as <-. cbn. tauto.
Qed.

(** Two fields of one type, [f] before [g]: [f] ends before [g] begins exactly if the space that [f]
    takes in an object is no more than the sizes that were added between the two.  In a release
    build the sum of all sizes must be below [2^64], where offsets wrap. *)
Theorem C36_apart p ts first count t ti base sizes i j f g k :
  offsets p ts first count t ti base sizes -> (p = Release -> base + sum sizes < 2 ^ 64) ->
  (i < j)%nat -> nth_error (ti_fields ti) i = Some f -> nth_error (ti_fields ti) j = Some g -> storage ts (f_type f) k ->
  (f_offset f + k <= f_offset g <-> k <= sum (firstn (j - i) (skipn i sizes))).
Proof.
  intros [_ L _ O] B Hij Ef Eg _.
  assert (Le : forall q l, sum (firstn q l) <= sum l).
  { intros q l. revert q. induction l as [|x l IH]; intros [|q]; cbn [firstn sum fold_right]; try lia.
    specialize (IH q). unfold sum in IH. lia. }
  assert (Off : forall q h, nth_error (ti_fields ti) q = Some h -> f_offset h = base + sum (firstn q sizes)).
  { intros q h E. destruct (O q h E) as [R D]. destruct p; [auto|]. rewrite R. apply N.mod_small.
    specialize (B eq_refl). specialize (Le q sizes). lia. }
  rewrite (Off _ _ Ef), (Off _ _ Eg).
  assert (Sp : sum (firstn j sizes) = sum (firstn i sizes) + sum (firstn (j - i) (skipn i sizes))).
  { clear - Hij. revert i j Hij. induction sizes as [|x l IH]; intros [|i] [|j] Hij; cbn [firstn skipn sum fold_right Nat.sub]; try lia.
    - destruct i; reflexivity || (rewrite firstn_nil; reflexivity).
    - specialize (IH i j ltac:(lia)). unfold sum in *. lia. }
  rewrite Sp. lia.
Qed.

(** Two reference fields of one class: the size that was added between them is that of the first
    field's class, which had no fields yet, so they lie on each other. *)
Example C36_apart_ex p : exists ai ti f g first count base sizes,
  history p no_files [] demo_app /\ nth_error (c_arena demo_app) 2 = Some (Some ai) /\ a_types ai = seq first count /\
  In 24%nat (a_types ai) /\ nth_error (c_types demo_app) 24 = Some ti /\
  offsets p (c_types demo_app) first count 24 ti base sizes /\
  nth_error (ti_fields ti) 0 = Some f /\ nth_error (ti_fields ti) 1 = Some g /\ f_offset f = f_offset g.
Proof.
  pose proof (demo_app_history p) as H.
  destruct (nth_error (c_arena demo_app) 2) as [[ai|]|] eqn:E; [|vm_compute in E; discriminate|vm_compute in E; discriminate].
  destruct (C36_offsets _ _ _ _ _ _ H E) as (first & count & T & Hs).
  assert (I : In 24%nat (a_types ai)) by (vm_compute in E; injection E as <-; cbn; tauto).
  destruct (Hs _ I) as (ti & base & sizes & F & O).
  destruct (nth_error (ti_fields ti) 0) as [f|] eqn:Ef; [|exfalso; revert Ef; vm_compute in F; injection F as <-; discriminate].
  destruct (nth_error (ti_fields ti) 1) as [g|] eqn:Eg; [|exfalso; revert Eg; vm_compute in F; injection F as <-; discriminate].
  exists ai, ti, f, g, first, count, base, sizes. repeat (split; auto).
  vm_compute in F. injection F as <-. vm_compute in Ef, Eg. injection Ef as <-. injection Eg as <-. reflexivity.
Qed.

Print Assumptions C36_offsets.
Print Assumptions C36_apart.

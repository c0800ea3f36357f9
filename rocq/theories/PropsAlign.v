(** Numbers on the heap and in the code are not aligned: C79. *)
From Coq Require Import NArith ZArith Arith String List Bool Lia.
From Coq.Strings Require Import Byte.
From Verif Require Import Base BaseFacts Runtime Value Opcodes Gc Interp.
From Verif Require Import SpecBytes SpecExec SpecFrames SpecStack SpecRuntime SpecTypes SpecHistory SpecHeap SpecSafety SpecAlign.
From Verif Require Import RuntimeInv TypeFacts HeapFacts FieldFacts HistoryProofs DemoImages DemoStates DemoRuns PropsHeap.
Import ListNotations.
Open Scope N_scope.

(** ** Arithmetic *)

Lemma aligned_some a k : k <> 0 -> aligned a k -> exists q, a = k * q.
Proof. intros K E. exists (a / k). unfold aligned in E. pose proof (N.div_mod a k K). lia. Qed.
Lemma some_aligned a k q : k <> 0 -> a = k * q -> aligned a k.
Proof. intros K ->. unfold aligned. rewrite N.mul_comm. now apply N.mod_mul. Qed.
Lemma width_cases v k : width_of v = Some k -> k = 1 \/ k = 2 \/ k = 4 \/ k = 8.
Proof. destruct v as [[]| | |]; cbn; intro E; try discriminate E; injection E as <-; auto. Qed.

(** ** Lengths of blocks *)

Lemma object_length ts t n bs : block ts (an_object t) bs -> size ts t n -> len bs = 5 + n.
Proof.
  intros B Sz. inversion B as [t' ti n' id Et Ei Sz'| |]; subst. rewrite (size_unique _ _ _ _ Sz' Sz), !len_app. unfold zeros. rewrite len_zeros.
  assert (len id = 4) by (unfold len; rewrite (proj1 Ei); reflexivity). change (len [x00]) with 1. lia.
Qed.
Lemma array_length ts t length bs n : block ts (an_array t length) bs -> size ts t n -> len bs = 17 + n * length.
Proof.
  intros B Sz. inversion B as [|t' ti u ui n' l id eid lb Eu Ei Lu Et Ee Sz' El|]; subst. rewrite (size_unique _ _ _ _ Sz' Sz), !len_app.
  unfold zeros. rewrite len_zeros. assert (len id = 4) by (unfold len; rewrite (proj1 Ei); reflexivity).
  assert (len eid = 4) by (unfold len; rewrite (proj1 Ee); reflexivity). assert (len lb = 8) by (unfold len; rewrite (proj1 El); reflexivity).
  change (len [x02]) with 1. lia.
Qed.
Lemma units_length text cs : Forall2 (encodes 2) text cs -> len (concat cs) = 2 * len text.
Proof.
  induction 1 as [|u c text cs H Cs IH]; [reflexivity|]. cbn [concat]. rewrite len_app, len_cons, IH. unfold len at 1. rewrite (proj1 H). lia.
Qed.
Lemma string_length ts text bs : block ts (a_string text) bs -> len bs = 13 + 2 * len text.
Proof.
  intro B. inversion B as [| |u ui text' id l cs Eu Ei Lu El Cs]; subst. rewrite !len_app, (units_length _ _ Cs).
  assert (len id = 4) by (unfold len; rewrite (proj1 Ei); reflexivity). assert (len l = 8) by (unfold len; rewrite (proj1 El); reflexivity).
  change (len [x04]) with 1. lia.
Qed.
Lemma next_block p s l s' l1 o1 b1 o2 b2 l2 : consistent p (x_vm s) -> grants p s l s' ->
  l = l1 ++ (o1, b1) :: (o2, b2) :: l2 -> o_off o2 = o_off o1 + len b1.
Proof.
  intros W G E. destruct (C39_disjoint _ _ _ _ W G) as (_ & O & _). rewrite (O _ _ _ _ E).
  assert (E' : l = (l1 ++ [(o1, b1)]) ++ (o2, b2) :: l2) by (rewrite <- app_assoc; exact E).
  rewrite (O _ _ _ _ E'), map_app, concat_app. cbn [map concat snd]. rewrite app_nil_r, !len_app. lia.
Qed.

(** ** What is not aligned *)

(** Of two strings that are allocated one after the other, one is not aligned, wherever the heap is. *)
Theorem C79_strings_refuted p s l s' ts l1 o1 b1 o2 b2 l2 text1 text2 : consistent p (x_vm s) -> grants p s l s' ->
  l = l1 ++ (o1, b1) :: (o2, b2) :: l2 -> block ts (a_string text1) b1 -> text1 <> [] -> text2 <> [] ->
  forall base, ~ (block_aligned base ts (a_string text1) o1 /\ block_aligned base ts (a_string text2) o2).
Proof.
  intros W G E B1 N1 N2 base [A1 A2]. pose proof (next_block _ _ _ _ _ _ _ _ _ _ W G E) as O. rewrite (string_length _ _ _ B1) in O.
  specialize (A1 _ _ (a_unit ts text1 0 ltac:(destruct text1; [easy|rewrite len_cons; lia]))).
  specialize (A2 _ _ (a_unit ts text2 0 ltac:(destruct text2; [easy|rewrite len_cons; lia]))).
  apply aligned_some in A1 as (q1 & A1); [|discriminate]. apply aligned_some in A2 as (q2 & A2); [|discriminate]. lia.
Qed.

(** The same holds for two arrays of numbers of more than one byte ... *)
Theorem C79_arrays_refuted p s l s' ts l1 o1 b1 o2 b2 l2 t n1 n2 v n k : consistent p (x_vm s) -> grants p s l s' ->
  l = l1 ++ (o1, b1) :: (o2, b2) :: l2 -> block ts (an_array t n1) b1 -> n1 <> 0 -> n2 <> 0 ->
  type_name_of v = Some n -> is_named ts t n -> width_of v = Some k -> k <> 1 ->
  forall base, ~ (block_aligned base ts (an_array t n1) o1 /\ block_aligned base ts (an_array t n2) o2).
Proof.
  intros W G E B1 N1 N2 T Nm K K1 base [A1 A2]. pose proof (next_block _ _ _ _ _ _ _ _ _ _ W G E) as O.
  assert (Sz : size ts t k).
  { apply size_primitive. replace k with (held_size (kind_of v)); [eapply number_width; eauto|].
    destruct v as [[]| | |]; cbn in K; try discriminate K; injection K as <-; reflexivity. }
  rewrite (array_length _ _ _ _ _ B1 Sz) in O.
  specialize (A1 _ _ (an_element ts t 0 n1 v n k T Nm K ltac:(lia))). specialize (A2 _ _ (an_element ts t 0 n2 v n k T Nm K ltac:(lia))).
  assert (K0 : k <> 0) by (destruct (width_cases _ _ K) as [->|[->|[->| ->]]]; discriminate).
  apply (aligned_some _ _ K0) in A1 as (q1 & A1). apply (aligned_some _ _ K0) in A2 as (q2 & A2).
  destruct (width_cases _ _ K) as [->|[->|[->| ->]]]; [contradiction| | |]; lia.
Qed.

(** ... and for two objects of a class with a field whose size does not divide the size of the objects. *)
Theorem C79_objects_refuted p s l s' ts l1 o1 b1 o2 b2 l2 t n d k : consistent p (x_vm s) -> grants p s l s' ->
  l = l1 ++ (o1, b1) :: (o2, b2) :: l2 -> block ts (an_object t) b1 -> size ts t n ->
  number_in ts (an_object t) d k -> (5 + n) mod k <> 0 ->
  forall base, ~ (block_aligned base ts (an_object t) o1 /\ block_aligned base ts (an_object t) o2).
Proof.
  intros W G E B1 Sz F N base [A1 A2]. pose proof (next_block _ _ _ _ _ _ _ _ _ _ W G E) as O. rewrite (object_length _ _ _ _ B1 Sz) in O.
  specialize (A1 _ _ F). specialize (A2 _ _ F).
  assert (K0 : k <> 0) by (inversion F; subst; match goal with K : width_of _ = Some _ |- _ => destruct (width_cases _ _ K) as [->|[->|[->| ->]]]; discriminate end).
  apply (aligned_some _ _ K0) in A1 as (q1 & A1). apply (aligned_some _ _ K0) in A2 as (q2 & A2). apply N.
  change (aligned (5 + n) k). apply (some_aligned _ _ (q2 - q1) K0). rewrite N.mul_sub_distr_l. lia.
Qed.

(** If the heap is at an even address, the first thing on it is not aligned, if it is a string, an array of
    numbers of more than one byte, or an object with such a number at an even offset. *)
Theorem C79_first_refuted p s r o bs s' ts d k : consistent p (x_vm s) -> grants p s [(o, bs)] s' -> memory s = [] ->
  number_in ts r d k -> k <> 1 ->
  (forall t, r = an_object t -> exists x, d = 5 + 2 * x) ->
  forall base, base mod 2 = 0 -> ~ block_aligned base ts r o.
Proof.
  intros W G M F K1 Fo base Ev A. specialize (A _ _ F). destruct (C39_disjoint _ _ _ _ W G) as (_ & O & _).
  specialize (O [] o bs [] eq_refl). cbn [map concat] in O. rewrite app_nil_r, M in O. change (len []) with 0 in O.
  apply (aligned_some base 2) in Ev as (q0 & E0); [|discriminate].
  assert (Kw : exists z, k = 2 * z /\ z <> 0).
  { inversion F; subst; try (match goal with K : width_of _ = Some _ |- _ => destruct (width_cases _ _ K) as [->|[->|[->| ->]]] end);
      [contradiction|exists 1|exists 2|exists 4|contradiction|exists 1|exists 2|exists 4|exists 1]; split; try reflexivity; discriminate. }
  destruct Kw as (z & -> & Z0). apply aligned_some in A as (q & A); [|lia].
  assert (Od : exists x, d = 2 * x + 1).
  { inversion F as [t ti f v n k' Et Hf Fs T Nm K| |]; subst.
    - destruct (Fo _ eq_refl) as (x & Ex). exists (2 + x). lia.
    - exists (8 + z * i). lia.
    - exists (6 + i). lia. }
  destruct Od as (x & ->). rewrite O, E0 in A. assert (X : 2 * (z * q) = 2 * (q0 + x) + 1) by lia. lia.
Qed.

(** ** What is aligned *)

(** If the first block starts 3 bytes behind a multiple of 8 and all blocks in front of the one at hand have
    multiples of 8 bytes, then everything in it is aligned except fields at other offsets than multiples of their size and arrays of numbers of
    8 bytes. *)
Theorem C79_aligned_partial p s l s' base ts : consistent p (x_vm s) -> grants p s l s' ->
  (base + len (memory s)) mod 8 = 3 -> forall l1 o bs l2 r d k, l = l1 ++ (o, bs) :: l2 ->
    (forall o' bs', In (o', bs') l1 -> len bs' mod 8 = 0) -> number_in ts r d k ->
    (forall t, r = an_object t -> aligned (d - 5) k) -> (forall t n, r = an_array t n -> k <> 8) ->
    aligned (base + o_off o + d) k.
Proof.
  intros W G B l1 o bs l2 r d k E L1 F Ob Ar. destruct (C39_disjoint _ _ _ _ W G) as (_ & O & _).
  rewrite (O _ _ _ _ E), len_app.
  assert (C : exists q, len (concat (map snd l1)) = 8 * q).
  { clear - L1. induction l1 as [|[o' b'] l1 IH]; [now exists 0|]. cbn [map concat snd]. rewrite len_app.
    destruct IH as (q & ->); [intros o bs H; apply (L1 o bs); now right|]. assert (H := L1 o' b' (or_introl eq_refl)).
    apply aligned_some in H as (q' & ->); [|discriminate]. exists (q' + q). lia. }
  destruct C as (q & ->). assert (X : exists b, base + len (memory s) = 8 * b + 3).
  { exists ((base + len (memory s)) / 8). pose proof (N.div_mod (base + len (memory s)) 8 ltac:(discriminate)) as D. rewrite B in D. exact D. }
  destruct X as (b & X).
  inversion F as [t ti f v n k' Et Hf Fs T Nm K|t i n v nm k' T Nm K Li|text i Li]; subst.
  - specialize (Ob _ eq_refl). replace (5 + f_offset f - 5) with (f_offset f) in Ob by lia.
    destruct (width_cases _ _ K) as [->|[->|[->| ->]]]; apply aligned_some in Ob as (y & Ob); try discriminate; rewrite Ob.
    + apply (some_aligned _ _ (base + (len (memory s) + 8 * q) + (5 + 1 * y))); [discriminate|lia].
    + apply (some_aligned _ _ (4 * b + 4 * q + 4 + y)); [discriminate|lia].
    + apply (some_aligned _ _ (2 * b + 2 * q + 2 + y)); [discriminate|lia].
    + apply (some_aligned _ _ (b + q + 1 + y)); [discriminate|lia].
  - specialize (Ar _ _ eq_refl). destruct (width_cases _ _ K) as [->|[->|[->| ->]]]; [| | |contradiction].
    + apply (some_aligned _ _ (base + (len (memory s) + 8 * q) + (17 + 1 * i))); [discriminate|lia].
    + apply (some_aligned _ _ (4 * b + 4 * q + 10 + i)); [discriminate|lia].
    + apply (some_aligned _ _ (2 * b + 2 * q + 5 + i)); [discriminate|lia].
  - apply (some_aligned _ _ (4 * b + 4 * q + 8 + i)); [discriminate|lia].
Qed.

(** ** Operands *)

(** There is a method of which one of the operands is not aligned, wherever its code is. *)
Theorem C79_operands_refuted : forall p, exists s m b, history p no_files [] s /\ mt_impl m = IIL b /\
  forall base, exists a n, operand_at (b_code b) a n /\ ~ aligned (base + a) n.
Proof.
  intro p. exists demo_lab, (lab "MakeX"). eexists. split; [apply demo_lab_history|]. split; [vm_compute; reflexivity|]. intro base.
  destruct (N.eq_dec ((base + 3) mod 4) 0) as [E|E]; [exists 8, 4|exists 3, 4].
  - split.
    + exists 7, [x7b], [x01; x00; x00; x04]. split; [vm_compute; auto 100|]. split; [intros [X|X]; discriminate X|].
      split; [exists [x02; x03; x73; x01; x00; x00; x06], [x2a]; vm_compute; auto|]. now vm_compute.
    + intro E'. apply (aligned_some _ 4) in E' as (q & E'); [|discriminate]. apply (aligned_some _ 4) in E as (q' & E); [|discriminate]. lia.
  - split; [|exact E]. exists 2, [x73], [x01; x00; x00; x06]. split; [vm_compute; auto 100|]. split; [intros [X|X]; discriminate X|].
    split; [exists [x02; x03], [x7b; x01; x00; x00; x04; x2a]; vm_compute; auto|]. now vm_compute.
Qed.

(** ** Examples *)

(** Two allocations in an empty heap. *)
Lemma two_grants p s r1 o1 s1 r2 o2 s2 n1 n2 : consistent p (x_vm s) -> granted p s r1 o1 s1 -> granted p s1 r2 o2 s2 -> memory s = [] ->
  (forall bs, block (c_types (x_vm s1)) r1 bs -> len bs = n1) -> (forall bs, block (c_types (x_vm s2)) r2 bs -> len bs = n2) ->
  n1 + n2 < 2 ^ 64 ->
  exists b1 b2, grants p s [(o1, b1); (o2, b2)] s2 /\ block (c_types (x_vm s1)) r1 b1 /\ len b1 = n1.
Proof.
  intros W G1 G2 M L1 L2 B. destruct (C39_fresh _ _ _ _ _ W G1) as (W1 & b1 & B1 & A1).
  destruct (C39_fresh _ _ _ _ _ W1 G2) as (W2 & b2 & B2 & A2). specialize (L1 _ B1). specialize (L2 _ B2).
  assert (N1 : no_wrap p (len (memory s) + len b1)) by (intros _; rewrite M, L1; change (len []) with 0; lia).
  assert (M1 : memory s1 = b1) by (rewrite (proj1 (A1 N1)), M; reflexivity).
  assert (N2 : no_wrap p (len (memory s1) + len b2)) by (intros _; rewrite M1, L1, L2; exact B).
  exists b1, b2. split; [|auto].
  refine (SpecHeap.one_more p s [(o1, b1)] s1 _ o2 b2 s2 _ G2 B2 N2).
  exact (SpecHeap.one_more p s [] s _ o1 b1 s1 (no_more p s) G1 B1 N1).
Qed.

Definition m01 (p : profile) := then_ m0 (alloc_string p greeting m0).
Definition m02 (p : profile) := then_ m0 (alloc_string p greeting (m01 p)).
Example C79_strings_ex p : exists o1 b1 o2 b2, grants p m0 [(o1, b1); (o2, b2)] (m02 p) /\
  forall base, ~ (block_aligned base (c_types (x_vm (m01 p))) (a_string greeting) o1 /\ block_aligned base (c_types (x_vm (m01 p))) (a_string greeting) o2).
Proof.
  assert (G1 : granted p m0 (a_string greeting) (got nothing (alloc_string p greeting m0)) (m01 p)).
  { apply string_granted; [unfold greeting; repeat constructor|reflexivity|]. refine (succeeds_ok nothing m0 _ _). destruct p; vm_compute; reflexivity. }
  assert (G2 : granted p (m01 p) (a_string greeting) (got nothing (alloc_string p greeting (m01 p))) (m02 p)).
  { apply string_granted; [unfold greeting; repeat constructor|reflexivity|]. refine (succeeds_ok nothing m0 _ _). destruct p; vm_compute; reflexivity. }
  destruct (two_grants p m0 _ _ _ _ _ _ 19 19 (proj1 (m0_ready p)) G1 G2 eq_refl) as (b1 & b2 & G & B1 & _);
    try (intros bs B; exact (string_length _ _ _ B)); [reflexivity|].
  eexists _, b1, _, b2. split; [exact G|]. eapply (C79_strings_refuted p m0 _ _ _ [] _ b1 _ b2 []); try exact G; eauto; try discriminate. apply (proj1 (m0_ready p)).
Qed.
Example C79_first_ex p : exists o b1 s', grants p m0 [(o, b1)] s' /\
  forall base, base mod 2 = 0 -> ~ block_aligned base (c_types (x_vm s')) (a_string greeting) o.
Proof.
  assert (G1 : granted p m0 (a_string greeting) (got nothing (alloc_string p greeting m0)) (m01 p)).
  { apply string_granted; [unfold greeting; repeat constructor|reflexivity|]. refine (succeeds_ok nothing m0 _ _). destruct p; vm_compute; reflexivity. }
  destruct (C39_fresh _ _ _ _ _ (proj1 (m0_ready p)) G1) as (_ & b1 & B1 & _).
  assert (G : grants p m0 [(got nothing (alloc_string p greeting m0), b1)] (m01 p)).
  { refine (SpecHeap.one_more p m0 [] m0 _ _ b1 _ (no_more p m0) G1 B1 _). intros _. rewrite (string_length _ _ _ B1). reflexivity. }
  eexists _, b1, _. split; [exact G|]. intros base Ev.
  apply (C79_first_refuted p m0 (a_string greeting) _ b1 (m01 p) _ (13 + 2 * 0) 2 (proj1 (m0_ready p)) G eq_refl); [now constructor|discriminate|discriminate|exact Ev].
Qed.
(** At an address that leaves 3 if divided by 8 it is aligned. *)
Example C79_aligned_ex p : exists o b1 s', grants p m0 [(o, b1)] s' /\
  forall base d k, base mod 8 = 3 -> number_in (c_types (x_vm s')) (a_string greeting) d k -> aligned (base + o_off o + d) k.
Proof.
  assert (G1 : granted p m0 (a_string greeting) (got nothing (alloc_string p greeting m0)) (m01 p)).
  { apply string_granted; [unfold greeting; repeat constructor|reflexivity|]. refine (succeeds_ok nothing m0 _ _). destruct p; vm_compute; reflexivity. }
  destruct (C39_fresh _ _ _ _ _ (proj1 (m0_ready p)) G1) as (_ & b1 & B1 & _).
  assert (G : grants p m0 [(got nothing (alloc_string p greeting m0), b1)] (m01 p)).
  { refine (SpecHeap.one_more p m0 [] m0 _ _ b1 _ (no_more p m0) G1 B1 _). intros _. rewrite (string_length _ _ _ B1). reflexivity. }
  eexists _, b1, _. split; [exact G|]. intros base d k Eb F.
  eapply (C79_aligned_partial p m0 _ _ base _ (proj1 (m0_ready p)) G _ [] _ b1 []); try exact F; try discriminate; [reflexivity|contradiction].
  Unshelve. change (len (memory m0)) with 0. now rewrite N.add_0_r.
Qed.

Definition m03 (p : profile) := then_ m0 (alloc_array 10 p int_ref 3 m0).
Definition m04 (p : profile) := then_ m0 (alloc_array 10 p int_ref 3 (m03 p)).
Lemma int_ref_named p s : In s [m03 p; m04 p] -> is_named (c_types (x_vm s)) int_ref (bytes_of_string "System.Int32") .
Proof. intros [<-|[<-|[]]]; (eexists; split; destruct p; vm_compute; reflexivity). Qed.
Example C79_arrays_ex p : exists o1 b1 o2 b2, grants p m0 [(o1, b1); (o2, b2)] (m04 p) /\
  forall base, ~ (block_aligned base (c_types (x_vm (m03 p))) (an_array int_ref 3) o1 /\ block_aligned base (c_types (x_vm (m03 p))) (an_array int_ref 3) o2).
Proof.
  assert (G1 : granted p m0 (an_array int_ref 3) (got nothing (alloc_array 10 p int_ref 3 m0)) (m03 p)).
  { apply array_granted with (fuel := 10%nat); [reflexivity|]. refine (succeeds_ok nothing m0 _ _). destruct p; vm_compute; reflexivity. }
  assert (G2 : granted p (m03 p) (an_array int_ref 3) (got nothing (alloc_array 10 p int_ref 3 (m03 p))) (m04 p)).
  { apply array_granted with (fuel := 10%nat); [reflexivity|]. refine (succeeds_ok nothing m0 _ _). destruct p; vm_compute; reflexivity. }
  assert (L : forall s bs, In s [m03 p; m04 p] -> block (c_types (x_vm s)) (an_array int_ref 3) bs -> len bs = 29).
  { intros s bs I B. apply (array_length _ _ _ _ 4 B). apply size_primitive.
    apply (number_width _ _ (VInt I32 0) (bytes_of_string "System.Int32")); [reflexivity|now apply (int_ref_named p)]. }
  destruct (two_grants p m0 _ _ _ _ _ _ 29 29 (proj1 (m0_ready p)) G1 G2 eq_refl) as (b1 & b2 & G & B1 & _);
    [intros; eapply L; eauto; now left|intros; eapply L; eauto; right; now left|reflexivity|].
  eexists _, b1, _, b2. split; [exact G|].
  eapply (C79_arrays_refuted p m0 _ _ _ [] _ b1 _ b2 [] int_ref 3 3 (VInt I32 0));
    [apply (proj1 (m0_ready p))|exact G|reflexivity|exact B1|discriminate|discriminate|reflexivity|apply (int_ref_named p); now left|reflexivity|discriminate].
Qed.

Definition m05 (p : profile) := then_ m0 (alloc 10 p box_type (m1 p)).
Example C79_objects_ex p : exists o1 b1 o2 b2, grants p m0 [(o1, b1); (o2, b2)] (m05 p) /\
  forall base, ~ (block_aligned base (c_types (x_vm (m1 p))) (an_object box_type) o1 /\ block_aligned base (c_types (x_vm (m1 p))) (an_object box_type) o2).
Proof.
  assert (G2 : granted p (m1 p) (an_object box_type) (got nothing (alloc 10 p box_type (m1 p))) (m05 p)).
  { apply object_granted with (fuel := 10%nat). refine (succeeds_ok nothing m0 _ _). destruct p; vm_compute; reflexivity. }
  assert (E1 : x_vm (m1 p) = demo_lab) by (destruct p; vm_compute; reflexivity).
  assert (E2 : x_vm (m05 p) = demo_lab) by (destruct p; vm_compute; reflexivity).
  assert (Sz : size (c_types demo_lab) box_type 16).
  { assert (Q : exists s', type_size 10 Debug box_type demo_lab = Ok 16 s') by (vm_compute; eauto). destruct Q as (s' & Q).
    destruct (type_size_run _ _ (proj1 (history_ready _ _ _ _ (demo_lab_history Debug))) _ _ _ _ Q) as (_ & k & Sk & [_ Ck]). rewrite (Ck eq_refl). exact Sk. }
  destruct (two_grants p m0 _ _ _ _ _ _ 21 21 (proj1 (m0_ready p)) (granted1 p) G2 eq_refl) as (b1 & b2 & G & B1 & _);
    [rewrite E1; intros bs B; exact (object_length _ _ 16 _ B Sz)|rewrite E2; intros bs B; exact (object_length _ _ 16 _ B Sz)|reflexivity|].
  eexists _, b1, _, b2. split; [exact G|]. rewrite E1 in *.
  assert (F : number_in (c_types demo_lab) (an_object box_type) 5 4).
  { assert (X : exists ti f, nth_error (c_types demo_lab) box_type = Some ti /\ In f (ti_fields ti) /\ f_static f = false /\ f_offset f = 0 /\
      is_named (c_types demo_lab) (f_type f) (bytes_of_string "System.Int32")).
    { eexists _, _. split; [reflexivity|]. split; [left; reflexivity|]. split; [reflexivity|]. split; [reflexivity|].
      eexists. split; vm_compute; reflexivity. }
    destruct X as (ti & f & Et & Hf & Fs & Fo & Nm). change 5 with (5 + 0) at 1. rewrite <- Fo.
    now apply (a_field _ box_type ti f (VInt I32 0) (bytes_of_string "System.Int32") 4). }
  eapply (C79_objects_refuted p m0 _ _ (c_types demo_lab) [] _ b1 _ b2 [] box_type 16 5 4 (proj1 (m0_ready p)) G eq_refl B1 Sz F). discriminate.
Qed.

Print Assumptions C79_strings_refuted.
Print Assumptions C79_arrays_refuted.
Print Assumptions C79_objects_refuted.
Print Assumptions C79_first_refuted.
Print Assumptions C79_aligned_partial.
Print Assumptions C79_operands_refuted.

(** C85 (references as operands) and C86 (operands of different integer types). *)
From Coq Require Import NArith ZArith String List Bool Lia.
From Coq.Strings Require Import Byte.
From Verif Require Import Base BaseFacts Metadata Runtime Value Opcodes Gc Interp SpecExec SpecRuntime SpecTypes SpecHistory SpecHeap SpecFrames SpecMixed
  RuntimeInv InterpFacts VmFacts HeapFacts FieldFacts PropsDecode PropsValue PropsCompare PropsHeap PropsFrames DemoStates DemoRuns.
Import ListNotations.
Open Scope N_scope.

(** ** Tests for equality, given what the test answers *)

Lemma ceq_run fuel p fr s a b l r : code_here fr [xfe; x01] -> x_operands s = b :: a :: l ->
  v_eq b a (set_operands s l) = Ok r (set_operands s l) ->
  continues fr s 2 (VInt I32 (if r then 1 else 0) :: l) (step fuel p fr s).
Proof.
  intros C E T. step_at2 C. unfold compare. rewrite (pop2_run s b a l E). unfold bind at 1, eq_test. rewrite T. now apply finish.
Qed.

Lemma beq_run fuel p fr s i n bs a b l r : equal_branch i n -> code_here fr (i :: bs) -> List.length bs = n ->
  x_operands s = b :: a :: l -> (0 <= Z.of_N (fr_ip fr) + 1 + Z.of_nat n + signed_number bs < 2 ^ 64)%Z ->
  v_eq b a (set_operands s l) = Ok r (set_operands s l) ->
  if r then branches fr s (1 + N.of_nat n) (signed_number bs) l (step fuel p fr s)
  else continues fr s (1 + N.of_nat n) l (step fuel p fr s).
Proof.
  intros BC C L E R T. pose proof (code_here_drop fr [i] bs C) as C'. change (len [i]) with 1 in C'.
  assert (LB : len bs = N.of_nat n) by (unfold len; lia). assert (NZ : N.of_nat n <> 0) by (destruct BC; easy).
  assert (X : step fuel p fr s = br_cmp (N.of_nat n) (set_ip fr (fr_ip fr + 1)) eq_test s).
  { apply code_here_prefix with (bs := [i]) (bs' := bs) in C. destruct BC; step_at C; reflexivity. }
  rewrite X, (br_cmp_run _ _ s b a l bs eq_test r C' LB NZ E T). cbn [fr_ip set_ip].
  replace (set_ip (set_ip fr (fr_ip fr + 1)) (fr_ip fr + 1 + N.of_nat n))
    with (set_ip fr (fr_ip fr + (1 + N.of_nat n))) by (rewrite N.add_assoc; reflexivity).
  destruct r; [apply branch_to; lia|apply stay].
Qed.

(** ** C85: references *)

Lemma v_eq_objects (s : machine) o o' : o_gen o = o_gen o' -> exists r, v_eq (VObject o) (VObject o') s = Ok r s /\ (r = true <-> o = o').
Proof.
  intro G. cbn [v_eq]. rewrite G, Nat.eqb_refl. eexists. split; [reflexivity|]. rewrite N.eqb_eq. destruct o, o'; cbn in *. split; congruence.
Qed.

(** References into the heap as it is now are equal exactly when they are to the same object, ... *)
Theorem C85_identity fuel p fr s o o' l : code_here fr [xfe; x01] -> x_operands s = VObject o' :: VObject o :: l ->
  o_gen o = h_gen (x_heap s) -> o_gen o' = h_gen (x_heap s) ->
  (o = o' -> continues fr s 2 (VInt I32 1 :: l) (step fuel p fr s)) /\
  (o <> o' -> continues fr s 2 (VInt I32 0 :: l) (step fuel p fr s)).
Proof.
  intros C E G G'. destruct (v_eq_objects (set_operands s l) o' o) as (r & T & I); [congruence|].
  pose proof (ceq_run fuel p fr s _ _ l r C E T) as X. split; intro H.
  - assert (r = true) as -> by (apply I; congruence). exact X.
  - destruct r; [|exact X]. exfalso. apply H. symmetry. now apply I.
Qed.
(** ... and the same decides the branches. *)
Theorem C85_branch fuel p fr s i n bs o o' l : equal_branch i n -> code_here fr (i :: bs) -> List.length bs = n ->
  x_operands s = VObject o' :: VObject o :: l -> (0 <= Z.of_N (fr_ip fr) + 1 + Z.of_nat n + signed_number bs < 2 ^ 64)%Z ->
  o_gen o = h_gen (x_heap s) -> o_gen o' = h_gen (x_heap s) ->
  (o = o' -> branches fr s (1 + N.of_nat n) (signed_number bs) l (step fuel p fr s)) /\
  (o <> o' -> continues fr s (1 + N.of_nat n) l (step fuel p fr s)).
Proof.
  intros BC C L E R G G'. destruct (v_eq_objects (set_operands s l) o' o) as (r & T & I); [congruence|].
  pose proof (beq_run fuel p fr s i n bs _ _ l r BC C L E R T) as X. split; intro H.
  - assert (r = true) as -> by (apply I; congruence). exact X.
  - destruct r; [|exact X]. exfalso. apply H. symmetry. now apply I.
Qed.

Lemma grants_blocks p s l s' : grants p s l s' -> forall o bs, In (o, bs) l -> 0 < len bs.
Proof.
  induction 1 as [|l s1 r o bs s2 G IH Gr B NW]; intros o' bs' I; [destruct I|]. apply in_app_or in I as [I|[[= <- <-]|[]]]; [eauto|].
  destruct B; rewrite len_app; unfold len at 1; cbn [List.length]; lia.
Qed.

(** Different allocations give different objects: while the heap has not moved, comparing the two references says so. *)
Theorem C85_allocated fuel p s l s' l1 o bs l2 o' bs' l3 fr s2 rest : consistent p (x_vm s) -> grants p s l s' ->
  len (memory s') <= h_cap (x_heap s) -> l = l1 ++ (o, bs) :: l2 ++ (o', bs') :: l3 ->
  x_heap s2 = x_heap s' -> code_here fr [xfe; x01] ->
  x_operands s2 = VObject o' :: VObject o :: rest \/ x_operands s2 = VObject o :: VObject o' :: rest ->
  continues fr s2 2 (VInt I32 0 :: rest) (step fuel p fr s2).
Proof.
  intros W G L E H C O. destruct (C39_disjoint _ _ _ _ W G) as (_ & _ & D). destruct (D _ _ _ _ _ _ _ E) as (_ & D1).
  destruct (C40_partial _ _ _ _ W G L) as (K & _).
  assert (I1 : In (o, bs) l) by (rewrite E; apply in_elt). assert (I2 : In (o', bs') l) by (rewrite E, app_comm_cons, app_assoc; apply in_elt).
  pose proof (grants_blocks _ _ _ _ G _ _ I1) as P. destruct (K _ _ I1) as (G1 & _), (K _ _ I2) as (G2 & _). rewrite <- H in G1, G2.
  assert (Ne : o <> o') by (intros ->; lia).
  destruct O as [O|O]; [apply (C85_identity fuel p fr s2 o o' rest C O G1 G2); auto|apply (C85_identity fuel p fr s2 o' o rest C O G2 G1); auto].
Qed.

(** *** Literals

    ECMA-335 III.4.16: two ldstr instructions with the same text give the same object. *)

(** The runtime allocates a new one each time. *)
Lemma literal_granted fuel p fr s bs text out s' : consistent p (x_vm s) ->
  code_here fr (x72 :: bs) -> List.length bs = 4%nat ->
  denotes_string (x_vm s) (fr_assembly fr) (Z.to_N (number bs)) text -> step fuel p fr s = Ok out s' ->
  exists fr' o s1, out = ONext fr' /\ frame_at fr fr' (fr_ip fr + 5) /\ granted p s (a_string text) o s1 /\ x_vm s1 = x_vm s /\
    s' = set_operands s1 (VObject o :: x_operands s1).
Proof.
  intros W C L D E. pose proof D as D0. rewrite number_le_dec, N2Z.id in D. pose proof C as C1. apply (code_here_prefix fr [x72] bs) in C1.
  revert E. step_at C1. intro E. unfold ldstr in E.
  pose proof (code_here_drop fr [x72] bs C) as C'. change (len [x72]) with 1 in C'.
  rewrite (fetched _ _ bs _ s C') in E by (unfold len; rewrite L; reflexivity). cbv beta iota in E. cbn [fr_ip set_ip fr_assembly] in E.
  unfold bind at 1 in E. rewrite (on_vm_stays _ s _ (denotes_string_get p _ _ _ _ D)) in E.
  apply bind_inv_ok in E as (o & s1 & A & E). destruct D0 as (ai & before & lst & after & Ea & Hb & _ & Un & Lt & Sl & _).
  assert (Lt' : len text < 2 ^ 64).
  { change (2 ^ 29) with 536870912 in Lt. change (2 ^ 64) with 18446744073709551616. lia. }
  destruct (alloc_string_ok _ _ _ _ _ W Un Lt' A) as (V & _).
  unfold push, bind, next, ret in E. injection E as <- <-. eexists _, o, s1. split; [reflexivity|].
  split; [unfold frame_at; cbn; repeat split; lia|]. split; [now apply string_granted|]. auto.
Qed.

Lemma string_block_length ts text bs : block ts (a_string text) bs -> len bs = 13 + 2 * len text.
Proof.
  intro B. inversion B as [| |u ui text' id l cs Eu Ei Lu El Cs]; subst.
  assert (Lc : len (concat cs) = 2 * len text).
  { clear - Cs. induction Cs as [|u c text cs H Cs IH]; [reflexivity|]. cbn [concat]. rewrite len_app, len_cons, IH.
    unfold len at 1. rewrite (proj1 H). lia. }
  rewrite !len_app, Lc. assert (Li : len id = 4) by (unfold len; rewrite (proj1 Ei); reflexivity).
  assert (Ll : len l = 8) by (unfold len; rewrite (proj1 El); reflexivity). rewrite Li, Ll. change (len [x04]) with 1. lia.
Qed.

(** Two loads of the same literal, one behind the other, and their comparison: the objects have the same text and the
    comparison leaves 0. *)
Theorem C85_literal_refuted fuel p fr s bs text out1 s1 : consistent p (x_vm s) ->
  code_here fr ((x72 :: bs) ++ (x72 :: bs) ++ [xfe; x01]) -> List.length bs = 4%nat ->
  denotes_string (x_vm s) (fr_assembly fr) (Z.to_N (number bs)) text ->
  len (memory s) + 2 * (13 + 2 * len text) <= h_cap (x_heap s) -> h_cap (x_heap s) < 2 ^ 64 ->
  step fuel p fr s = Ok out1 s1 ->
  exists fr1, out1 = ONext fr1 /\ forall out2 s2, step fuel p fr1 s1 = Ok out2 s2 ->
  exists fr2 o o', out2 = ONext fr2 /\ string_value s2 o text /\ string_value s2 o' text /\
    x_operands s2 = VObject o' :: VObject o :: x_operands s /\
    continues fr2 s2 2 (VInt I32 0 :: x_operands s) (step fuel p fr2 s2).
Proof.
  intros W C L D Cap C64 E1.
  assert (L5 : len (x72 :: bs) = 5) by (unfold len; cbn [List.length]; rewrite L; reflexivity).
  destruct (literal_granted _ _ _ _ _ _ _ _ W (code_here_prefix _ _ _ C) L D E1) as (fr1 & o & t1 & -> & F1 & G1 & V1 & ->).
  exists fr1. split; [reflexivity|]. intros out2 s2 E2.
  assert (C1 : code_here fr1 ((x72 :: bs) ++ [xfe; x01])).
  { pose proof (code_here_drop _ _ _ C) as (a & b & Ea & Eb). destruct F1 as (_ & _ & Ec & _ & _ & Ei). exists a, b. rewrite Ec, Ei.
    split; [exact Ea|]. rewrite <- Eb, L5. reflexivity. }
  set (u1 := set_operands t1 (VObject o :: x_operands t1)) in *.
  assert (V1' : x_vm u1 = x_vm s) by (unfold u1; exact V1).
  assert (A1 : fr_assembly fr1 = fr_assembly fr) by apply F1.
  destruct (literal_granted fuel p fr1 u1 bs text out2 s2) as (fr2 & o' & t2 & -> & F2 & G2 & V2 & ->); try assumption.
  { now rewrite V1'. } { exact (code_here_prefix _ _ _ C1). } { now rewrite V1', A1. }
  destruct (C39_fresh _ _ _ _ _ W G1) as (W1 & b1 & B1 & Al1). pose proof (string_block_length _ _ _ B1) as Lb1.
  assert (W1' : consistent p (x_vm u1)) by (now rewrite V1').
  destruct (C39_fresh _ _ _ _ _ W1' G2) as (W2 & b2 & B2 & Al2). pose proof (string_block_length _ _ _ B2) as Lb2.
  destruct Al1 as (M1 & O1 & _ & _ & P1 & _ & H1 & _); [intros _; rewrite Lb1; lia|]. destruct H1 as (H1 & H1'); [rewrite Lb1; lia|].
  assert (Mu : memory u1 = memory s ++ b1) by (unfold u1; exact M1). assert (Hu : h_gen (x_heap u1) = h_gen (x_heap s)) by (unfold u1; exact H1).
  assert (Hu' : h_cap (x_heap u1) = h_cap (x_heap s)) by (unfold u1; exact H1').
  assert (Lu : len (memory u1) + len b2 <= h_cap (x_heap u1)) by (rewrite Mu, Hu', len_app, Lb1, Lb2; lia).
  destruct Al2 as (M2 & O2 & _ & _ & P2 & _ & H2 & _); [intros _; rewrite Hu' in Lu; lia|]. destruct (H2 Lu) as (H2g & H2c).
  assert (SV1 : string_value u1 o text).
  { pose proof (C43_new _ _ _ _ _ W G1) as K. unfold u1. apply K. intros _. lia. }
  assert (Gs : grants p u1 [(o', b2)] t2).
  { apply (SpecHeap.one_more p u1 [] u1 (a_string text) o' b2 t2 (no_more p u1) G2 B2). intros _. rewrite Hu' in Lu. lia. }
  assert (SV1' : string_value t2 o text).
  { eapply C43_kept; [exact W1'|exact Gs| |exact SV1]. rewrite M2, len_app. exact Lu. }
  assert (SV2 : string_value t2 o' text).
  { apply (C43_new _ _ _ _ _ W1' G2). intros _. rewrite Hu' in Lu. rewrite Lb2 in Lu. lia. }
  assert (Os : x_operands t2 = VObject o :: x_operands s).
  { rewrite P2. unfold u1. change (VObject o :: x_operands t1 = VObject o :: x_operands s). now rewrite P1. }
  exists fr2, o, o'. split; [reflexivity|]. split; [exact SV1'|]. split; [exact SV2|]. rewrite Os. split; [reflexivity|].
  apply C85_identity with (o := o) (o' := o').
  - pose proof (code_here_drop _ _ _ C1) as (a & b & Ea & Eb). destruct F2 as (_ & _ & Ec & _ & _ & Ei). exists a, b. rewrite Ec, Ei.
    split; [exact Ea|]. rewrite <- Eb, L5. reflexivity.
  - reflexivity.
  - rewrite O1. cbn [o_gen]. change (h_gen (x_heap t1) = h_gen (x_heap t2)). rewrite H2g, Hu, H1. reflexivity.
  - rewrite O2. reflexivity.
  - rewrite O1, O2, Mu, len_app. intros [= _ X]. lia.
Qed.

(** *** References as conditions

    ECMA-335 III.3.17 and III.3.18: brtrue is taken for every reference other than null, brfalse for null.  The runtime panics
    for every reference. *)
Theorem C85_condition_refuted fuel p fr s i n zero bs o l : zero_branch_code i n zero -> code_here fr (i :: bs) -> List.length bs = n ->
  x_operands s = VObject o :: l -> panics (step fuel p fr s).
Proof.
  intros BC C L E. pose proof (code_here_drop fr [i] bs C) as C'. change (len [i]) with 1 in C'.
  assert (LB : len bs = N.of_nat n) by (unfold len; lia). assert (NZ : N.of_nat n <> 0) by (destruct BC; easy).
  assert (X : step fuel p fr s = br_if (N.of_nat n) (set_ip fr (fr_ip fr + 1)) zero s).
  { apply code_here_prefix with (bs := [i]) (bs' := bs) in C. destruct BC; step_at C; reflexivity. }
  rewrite X. unfold br_if, bind at 1. rewrite (il_signed_here _ bs _ s C' LB NZ). unfold bind. rewrite (pop_run s _ l E). now eexists.
Qed.

(** ** C86: operands of different integer types *)

(** Numbers of the same type are equal exactly when their values are, ... *)
Theorem C86_equal_partial fuel p fr s t x y l : code_here fr [xfe; x01] -> x_operands s = VInt t y :: VInt t x :: l ->
  (x = y -> continues fr s 2 (VInt I32 1 :: l) (step fuel p fr s)) /\
  (x <> y -> continues fr s 2 (VInt I32 0 :: l) (step fuel p fr s)).
Proof.
  intros C E. assert (T : v_eq (VInt t y) (VInt t x) (set_operands s l) = Ok (y =? x)%Z (set_operands s l)).
  { cbn [v_eq]. rewrite ity_eqb_refl. reflexivity. }
  pose proof (ceq_run fuel p fr s _ _ l _ C E T) as X. destruct (Z.eqb_spec y x) as [->|N]; split; intro H; congruence || exact X.
Qed.

Lemma ity_eqb_other t u : t <> u -> ity_eqb t u = false.
Proof. destruct t, u; congruence || reflexivity. Qed.

(** ... but those of different types never are, although on the operand stack of CIL both are numbers of the same size: ceq
    leaves 0 and beq is not taken even if the values are equal. *)
Theorem C86_equal_refuted fuel p fr s t u x l : stack_bits t = stack_bits u -> t <> u ->
  fits t x -> fits u x -> x_operands s = VInt u x :: VInt t x :: l ->
  (code_here fr [xfe; x01] -> continues fr s 2 (VInt I32 0 :: l) (step fuel p fr s)) /\
  (forall i n bs, equal_branch i n -> code_here fr (i :: bs) -> List.length bs = n ->
     (0 <= Z.of_N (fr_ip fr) + 1 + Z.of_nat n + signed_number bs < 2 ^ 64)%Z ->
     continues fr s (1 + N.of_nat n) l (step fuel p fr s)).
Proof.
  intros _ N _ _ E. assert (T : v_eq (VInt u x) (VInt t x) (set_operands s l) = Ok false (set_operands s l)).
  { cbn [v_eq]. rewrite ity_eqb_other by congruence. reflexivity. }
  split.
  - intro C. exact (ceq_run fuel p fr s _ _ l false C E T).
  - intros i n bs BC C L R. exact (beq_run fuel p fr s i n bs _ _ l false BC C L E R T).
Qed.

Lemma v_cmp_other t u x y (s : machine) : t <> u -> exists w, v_cmp (VInt t x) (VInt u y) s = Panic w.
Proof. intro N. cbn [v_cmp]. rewrite ity_eqb_other by assumption. now eexists. Qed.

(** Comparing them by order panics, ... *)
Theorem C86_order_refuted fuel p fr s t u x y l : stack_bits t = stack_bits u -> t <> u -> x_operands s = VInt u y :: VInt t x :: l ->
  (forall code, In code order_codes -> code_here fr code -> panics (step fuel p fr s)) /\
  (forall i n bs, order_branch i n -> code_here fr (i :: bs) -> List.length bs = n -> panics (step fuel p fr s)).
Proof.
  intros _ N E. destruct (v_cmp_other t u x y (set_operands s l) N) as (w & X). split.
  - intros code I C. unfold order_codes in I. cbn [In] in I.
    repeat (destruct I as [<-|I]; [step_at2 C; unfold compare; rewrite (pop2_run s _ _ l E);
      unfold v_gt, v_lt, bind; rewrite X; now eexists|]). destruct I.
  - intros i n bs BC C L. pose proof (code_here_drop fr [i] bs C) as C'. change (len [i]) with 1 in C'.
    assert (LB : len bs = N.of_nat n) by (unfold len; lia). assert (NZ : N.of_nat n <> 0) by (destruct BC; easy).
    apply code_here_prefix with (bs := [i]) (bs' := bs) in C.
    destruct BC; step_at C; unfold br_cmp; rewrite (pop2_run s _ _ l E); unfold bind at 1; rewrite (il_signed_here _ bs _ _ C' LB NZ);
      unfold v_gt, v_lt, v_ge, v_le, bind; rewrite X; now eexists.
Qed.

(** ... and so does computing with them. *)
Theorem C86_arithmetic_refuted fuel p fr s t u x y i l : stack_bits t = stack_bits u -> t <> u ->
  In i [x58; x59; x5a; x5b; x5c; x5d; x5e; x5f; x60; x61; x62; x63] -> code_here fr [i] ->
  x_operands s = VInt u y :: VInt t x :: l -> panics (step fuel p fr s).
Proof.
  intros _ N I C E. cbn [In] in I. pose proof (ity_eqb_other t u N) as Ne.
  repeat (destruct I as [<-|I]; [step_at C; rewrite (op2_run _ _ _ _ _ _ E);
    unfold v_add, v_sub, v_mul, v_div, v_rem, v_and, v_or, v_xor, v_shl, v_shr, binary; rewrite Ne; now eexists|]). destruct I.
Qed.

(** *** A local variable that has not been assigned

    The zero it starts with is of another type than the constants: comparing it with zero says that it is not zero. *)
Theorem C86_fresh_refuted fuel p m b args s fr s1 ld i c : enters m b args s fr s1 -> i < len (b_locals b) ->
  load_code ld false i -> constant_code c (VInt I32 0) -> code_here fr (ld ++ c ++ [xfe; x01]) ->
  exists fr2 s2 fr3 s3, step fuel p fr s1 = Ok (ONext fr2) s2 /\ step fuel p fr2 s2 = Ok (ONext fr3) s3 /\
    continues fr3 s3 2 (VInt I32 0 :: x_operands s1) (step fuel p fr3 s3).
Proof.
  intros En Li K1 K2 C.
  assert (V : variable s1 (fr_locals fr) i (VInt I8 0)).
  { destruct En as (ti & ai & gen & cap & _ & _ & _ & -> & ->). cbn. split; [reflexivity|]. split; [exact Li|].
    rewrite nth_error_app2 by (unfold in_use, len; lia). apply nth_error_repeat. unfold in_use, len in *. lia. }
  destruct (C48_load_variable fuel p fr s1 ld false i _ K1 (code_here_prefix _ _ _ C) V) as (fr2 & s2 & E1 & F1 & O1).
  assert (C1 : code_here fr2 (c ++ [xfe; x01])).
  { pose proof (code_here_drop _ _ _ C) as (a & d & Ea & Eb). destruct F1 as (_ & _ & Ec & _ & _ & Ei). exists a, d. rewrite Ec, Ei. auto. }
  destruct (C48_constants fuel p fr2 s2 c _ K2 (code_here_prefix _ _ _ C1)) as (fr3 & s3 & E2 & F2 & O2).
  exists fr2, s2, fr3, s3. split; [exact E1|]. split; [exact E2|].
  apply (C86_equal_refuted fuel p fr3 s3 I8 I32 0 (x_operands s1)); try (reflexivity || easy).
  - destruct O1 as (_ & _ & _ & _ & _ & O1), O2 as (_ & _ & _ & _ & _ & O2). rewrite O2, O1. reflexivity.
  - pose proof (code_here_drop _ _ _ C1) as (a & d & Ea & Eb). destruct F2 as (_ & _ & Ec & _ & _ & Ei). exists a, d. rewrite Ec, Ei. auto.
Qed.

(** *** Shifts *)

Lemma twos_complement_unique t x r r' : twos_complement t x r -> twos_complement t x r' -> r' = r.
Proof.
  intros [F (k & K)] [F' (k' & K')]. assert (E : (r' - r = (k' - k) * 2 ^ SpecExec.width t)%Z) by nia.
  destruct t; cbn [fits SpecExec.width] in *; [change (2 ^ 8)%Z with 256%Z in E|change (2 ^ 8)%Z with 256%Z in E|change (2 ^ 16)%Z with 65536%Z in E|
    change (2 ^ 16)%Z with 65536%Z in E|change (2 ^ 32)%Z with 4294967296%Z in E|change (2 ^ 32)%Z with 4294967296%Z in E|
    change (2 ^ 64)%Z with 18446744073709551616%Z in E|change (2 ^ 64)%Z with 18446744073709551616%Z in E]; lia.
Qed.
Lemma floor_unique a n q r : (0 <= n)%Z -> (q * 2 ^ n <= a < (q + 1) * 2 ^ n)%Z -> (r * 2 ^ n <= a < (r + 1) * 2 ^ n)%Z -> q = r.
Proof. intros N Q R. assert (0 < 2 ^ n)%Z by (apply Z.pow_pos_nonneg; lia). nia. Qed.

(** A 32-bit number is shifted by a 32-bit count as prescribed; ... *)
Theorem C86_shift_partial fuel p fr s i a n r l : code_here fr [i] -> x_operands s = VInt I32 n :: VInt I32 a :: l ->
  fits I32 a -> fits I32 n -> shift_result i I32 a n r -> continues fr s 1 (VInt I32 r :: l) (step fuel p fr s).
Proof.
  intros C E A B H. assert (U : forall r', shift_result i I32 a n r' -> r' = r).
  { intros r' H'. inversion H; subst; inversion H'; subst; try discriminate.
    - eapply twos_complement_unique; eassumption.
    - match goal with X : (r * _ <= _ < _)%Z, Y : (r' * _ <= _ < _)%Z |- _ => apply (floor_unique a n r' r); auto; lia end. }
  inversion H as [t a' n' r' R T|t a' n' r' R T Q]; subst.
  - destruct (proj1 (C44_shl fuel p fr s I32 a n l C E A B) R) as (q & Tq & X). rewrite <- (U q (shifted_left _ _ _ _ R Tq)). exact X.
  - destruct (proj1 (C44_shr fuel p fr s I32 a n l C E A B) R) as (q & Tq & Qq & X). rewrite <- (U q (shifted_right _ _ _ _ R Tq Qq)). exact X.
Qed.

(** ... a 64-bit number is not: every shift of one by a 32-bit count panics, whatever the result should be.  *)
Theorem C86_shift_refuted fuel p fr s i a n r l : code_here fr [i] -> x_operands s = VInt I32 n :: VInt I64 a :: l ->
  fits I64 a -> fits I32 n -> shift_result i I64 a n r -> panics (step fuel p fr s).
Proof.
  intros C E _ _ H. inversion H; subst; step_at C; rewrite (op2_run _ _ _ _ _ _ E); now eexists.
Qed.

(** ** Examples *)

(** The box and the array of the example heap: the box is itself and is not the array. *)
Definition compared (p : profile) (a b : obj) : machine := set_operands (m3 p) [VObject b; VObject a].
Lemma heap_now p : o_gen (box p) = h_gen (x_heap (m3 p)) /\ o_gen (arr p) = h_gen (x_heap (m3 p)) /\ box p <> arr p.
Proof. split; [|split]; [destruct p; vm_compute; reflexivity|destruct p; vm_compute; reflexivity|]. intro H. apply (f_equal o_off) in H. destruct p; vm_compute in H; discriminate. Qed.

Example C85_identity_ex p :
  continues (frame_with [xfe; x01]) (compared p (box p) (box p)) 2 [VInt I32 1] (step 10 p (frame_with [xfe; x01]) (compared p (box p) (box p))) /\
  continues (frame_with [xfe; x01]) (compared p (box p) (arr p)) 2 [VInt I32 0] (step 10 p (frame_with [xfe; x01]) (compared p (box p) (arr p))).
Proof.
  destruct (heap_now p) as (A & B & N). split.
  - exact (proj1 (C85_identity 10 p _ (compared p (box p) (box p)) _ _ [] (here_it_is _) eq_refl A A) eq_refl).
  - exact (proj2 (C85_identity 10 p _ (compared p (box p) (arr p)) _ _ [] (here_it_is _) eq_refl A B) N).
Qed.
Example C85_branch_ex p :
  branches (frame_with [x2e; x05]) (compared p (box p) (box p)) 2 5 [] (step 10 p (frame_with [x2e; x05]) (compared p (box p) (box p))) /\
  continues (frame_with [x2e; x05]) (compared p (box p) (arr p)) 2 [] (step 10 p (frame_with [x2e; x05]) (compared p (box p) (arr p))).
Proof.
  destruct (heap_now p) as (A & B & N). split.
  - refine (proj1 (C85_branch 10 p _ (compared p (box p) (box p)) x2e 1 [x05] _ _ [] eb_beq_s (here_it_is _) eq_refl eq_refl _ A A) eq_refl). cbn. lia.
  - refine (proj2 (C85_branch 10 p _ (compared p (box p) (arr p)) x2e 1 [x05] _ _ [] eb_beq_s (here_it_is _) eq_refl eq_refl _ A B) N). cbn. lia.
Qed.
Example C85_allocated_ex p :
  continues (frame_with [xfe; x01]) (compared p (box p) (str p)) 2 [VInt I32 0] (step 10 p (frame_with [xfe; x01]) (compared p (box p) (str p))).
Proof.
  destruct (C39_ex p) as (b1 & b2 & b3 & G & _ & L & _).
  exact (C85_allocated 10 p m0 _ (m3 p) [] (box p) b1 [(arr p, b2)] (str p) b3 [] _ (compared p (box p) (str p)) [] (proj1 (m0_ready p)) G L eq_refl eq_refl
    (here_it_is _) (or_introl eq_refl)).
Qed.

Definition twice : list byte := [x72; x01; x00; x00; x70] ++ [x72; x01; x00; x00; x70] ++ [xfe; x01].
Example C85_literal_ex p : exists fr1 s1 fr2 s2 o o', step 10 p (frame_with twice) (m1 p) = Ok (ONext fr1) s1 /\
  step 10 p fr1 s1 = Ok (ONext fr2) s2 /\ string_value s2 o [0x61] /\ string_value s2 o' [0x61] /\
  continues fr2 s2 2 [VInt I32 0] (step 10 p fr2 s2).
Proof.
  assert (X : match step 10 p (frame_with twice) (m1 p) with
              | Ok (ONext fr1) s1 => match step 10 p fr1 s1 with Ok _ _ => True | _ => False end
              | _ => False end) by (destruct p; vm_compute; exact Logic.I).
  destruct (step 10 p (frame_with twice) (m1 p)) as [out1 s1| | | |] eqn:E1; try contradiction.
  destruct (C85_literal_refuted 10 p _ (m1 p) [x01; x00; x00; x70] [0x61] out1 s1 (proj1 (m1_ready p)) (here_it_is _) eq_refl) as (fr1 & -> & H);
    [| | |exact E1|].
  - rewrite lab_vm. destruct lab_assembly as [ai|] eqn:Ea; [|discriminate Ea].
    assert (Y : a_user_strings ai = a_user_strings match lab_assembly with Some a => a | None => ai end) by (now rewrite Ea).
    exists ai, [x00], x00, [x07; xe9; x00; x3d; xd8; x00; xde; x00; x00; x00; x00]. split; [exact (f_equal Some Ea)|].
    rewrite Y. repeat split; try (vm_compute; reflexivity). repeat constructor.
  - destruct p; vm_compute; discriminate.
  - destruct p; vm_compute; reflexivity.
  - destruct (step 10 p fr1 s1) as [out2 s2| | | |] eqn:E2; try contradiction.
    destruct (H _ _ eq_refl) as (fr2 & o & o' & -> & V & V' & _ & K). exists fr1, s1, fr2, s2, o, o'. auto 10.
Qed.
Example C85_condition_ex p : panics (step 10 p (frame_with [x2d; x05]) (set_operands (m3 p) [VObject (box p)])).
Proof. exact (C85_condition_refuted 10 p _ (set_operands (m3 p) [VObject (box p)]) x2d 1 false [x05] _ [] is_brtrue_s (here_it_is _) eq_refl eq_refl). Qed.

(** Seven as a byte and as an int. *)
Definition sevens : machine := set_operands m0 [VInt I32 7; VInt U8 7].
Example C86_equal_ex p :
  continues (frame_with [xfe; x01]) sevens 2 [VInt I32 0] (step 10 p (frame_with [xfe; x01]) sevens) /\
  continues (frame_with [x2e; x05]) sevens 2 [] (step 10 p (frame_with [x2e; x05]) sevens) /\
  panics (step 10 p (frame_with [x31; x05]) sevens) /\ panics (step 10 p (frame_with [xfe; x04]) sevens) /\
  panics (step 10 p (frame_with [x58]) sevens).
Proof.
  assert (R : fits U8 7 /\ fits I32 7) by (cbn; lia). destruct R as [R1 R2]. assert (N : U8 <> I32) by discriminate.
  split; [exact (proj1 (C86_equal_refuted 10 p _ sevens U8 I32 7 [] eq_refl N R1 R2 eq_refl) (here_it_is _))|].
  split.
  - refine (proj2 (C86_equal_refuted 10 p _ sevens U8 I32 7 [] eq_refl N R1 R2 eq_refl) x2e 1%nat [x05] eb_beq_s (here_it_is _) eq_refl _). cbn. lia.
  - split; [exact (proj2 (C86_order_refuted 10 p _ sevens U8 I32 7 7 [] eq_refl N eq_refl) x31 1%nat [x05] ob_ble_s (here_it_is _) eq_refl)|].
    split; [refine (proj1 (C86_order_refuted 10 p _ sevens U8 I32 7 7 [] eq_refl N eq_refl) [xfe; x04] _ (here_it_is _)); cbn; auto|].
    refine (C86_arithmetic_refuted 10 p _ sevens U8 I32 7 7 x58 [] eq_refl N _ (here_it_is _) eq_refl). now left.
Qed.
Example C86_equal_partial_ex p :
  continues (frame_with [xfe; x01]) (set_operands m0 [VInt U8 7; VInt U8 7]) 2 [VInt I32 1] (step 10 p (frame_with [xfe; x01]) (set_operands m0 [VInt U8 7; VInt U8 7])).
Proof. exact (proj1 (C86_equal_partial 10 p _ (set_operands m0 [VInt U8 7; VInt U8 7]) U8 7 7 [] (here_it_is _) eq_refl) eq_refl). Qed.

(** A method whose body starts with: is the second local variable zero? *)
Definition asking_body : body := mkBody [x07; x16; xfe; x01; x2a] 8 [0%nat; 0%nat] true [].
Example C86_fresh_ex p : exists fr s1 fr2 s2 fr3 s3, enters (lab "Many") asking_body CHost m0 fr s1 /\
  step 10 p fr s1 = Ok (ONext fr2) s2 /\ step 10 p fr2 s2 = Ok (ONext fr3) s3 /\ continues fr3 s3 2 [VInt I32 0] (step 10 p fr3 s3).
Proof.
  assert (En : exists fr s1, enters (lab "Many") asking_body CHost m0 fr s1 /\ fr_code fr = [x07; x16; xfe; x01; x2a] /\ fr_ip fr = 0 /\ x_operands s1 = []).
  { eexists. eexists. split.
    - eexists. eexists. eexists. eexists. cbv zeta. split; [vm_compute; reflexivity|]. split; [vm_compute; reflexivity|].
      split; [vm_compute; split; reflexivity|]. split; reflexivity.
    - split; [reflexivity|]. split; reflexivity. }
  destruct En as (fr & s1 & En & Ec & Ei & Eo). exists fr, s1.
  destruct (C86_fresh_refuted 10 p _ _ _ _ _ _ [x07] 1 [x16] En eq_refl is_ldloc_1 is_ldc_0) as (fr2 & s2 & fr3 & s3 & E1 & E2 & K).
  - exists [], [x2a]. rewrite Ec, Ei. auto.
  - exists fr2, s2, fr3, s3. rewrite Eo in K. auto.
Qed.

Example C86_shift_ex p : continues (frame_with [x62]) (set_operands m0 [VInt I32 3; VInt I32 5]) 1 [VInt I32 40]
    (step 10 p (frame_with [x62]) (set_operands m0 [VInt I32 3; VInt I32 5])) /\
  shift_result x62 I64 5 3 40 /\ panics (step 10 p (frame_with [x62]) (set_operands m0 [VInt I32 3; VInt I64 5])).
Proof.
  assert (T : forall t, t = I32 \/ t = I64 -> shift_result x62 t 5 3 40).
  { intros t [->| ->]; (constructor; [cbn; lia|split; [cbn; lia|exists 0%Z; reflexivity]]). }
  split; [|split; [auto|]].
  - refine (C86_shift_partial 10 p _ (set_operands m0 [VInt I32 3; VInt I32 5]) x62 5 3 40 [] (here_it_is _) eq_refl _ _ (T _ (or_introl eq_refl))); cbn; lia.
  - refine (C86_shift_refuted 10 p _ (set_operands m0 [VInt I32 3; VInt I64 5]) x62 5 3 40 [] (here_it_is _) eq_refl _ _ (T _ (or_intror eq_refl))); cbn; lia.
Qed.

Print Assumptions C85_identity.
Print Assumptions C85_branch.
Print Assumptions C85_allocated.
Print Assumptions C85_literal_refuted.
Print Assumptions C85_condition_refuted.
Print Assumptions C86_equal_partial.
Print Assumptions C86_equal_refuted.
Print Assumptions C86_order_refuted.
Print Assumptions C86_arithmetic_refuted.
Print Assumptions C86_fresh_refuted.
Print Assumptions C86_shift_partial.
Print Assumptions C86_shift_refuted.

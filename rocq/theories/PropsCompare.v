(** Comparisons and branches: C47 and C49. *)
From Coq Require Import NArith ZArith String List Bool Lia.
From Coq.Strings Require Import Byte.
From Verif Require Import Base BaseFacts Metadata Runtime Value Opcodes Gc Interp SpecExec InterpFacts FloatFacts
  DemoStates PropsValue.
Import ListNotations.
Open Scope N_scope.

Lemma v_cmp_ordered a b c (s : machine) : ordered a b c -> v_cmp a b s = Ok c s.
Proof.
  destruct 1; cbn [v_cmp].
  - now rewrite ity_eqb_refl.
  - unfold ret. now rewrite (cmp_measure single 23 8).
  - unfold ret. now rewrite (cmp_measure double 52 11).
  - unfold ret. now rewrite (cmp_nan single 23 8).
  - unfold ret. now rewrite (cmp_nan double 52 11).
Qed.

Lemma ordered_flip a b c : ordered a b c -> ordered b a (option_map CompOpp c).
Proof.
  destruct 1; cbn [option_map]; rewrite <- ?Z.compare_antisym; constructor; tauto.
Qed.

Lemma v_eq_ordered a b c (s : machine) : ordered a b c ->
  v_eq a b s = Ok (match c with Some Eq => true | _ => false end) s.
Proof.
  destruct 1; cbn [v_eq]; unfold ret.
  - rewrite ity_eqb_refl. cbn [andb]. unfold Z.eqb. do 2 f_equal.
    destruct a, b; cbn; try reflexivity; unfold Pos.eqb; try (destruct (Pos.compare_spec p p0)).
    all: try (subst; apply Pos.eqb_refl); try (apply Pos.eqb_neq; lia).
    all: rewrite <- ?Pos.compare_antisym; destruct (Pos.compare_spec p p0); cbn; try (subst; apply Pos.eqb_refl); try (apply Pos.eqb_neq; lia).
  - unfold float_eq. now rewrite (cmp_measure single 23 8).
  - unfold float_eq. now rewrite (cmp_measure double 52 11).
  - unfold float_eq. now rewrite (cmp_nan single 23 8).
  - unfold float_eq. now rewrite (cmp_nan double 52 11).
Qed.

Lemma eq_test_ordered a b c s : ordered a b c -> eq_test a b s = Ok (match c with Some Eq => true | _ => false end) s.
Proof.
  intro O. unfold eq_test. rewrite (v_eq_ordered b a _ s (ordered_flip _ _ _ O)). now destruct c as [[]|].
Qed.

(** A test decides whether a relation holds. *)
Definition decides (test : value -> value -> M machine bool) (rel : comparison -> Prop) : Prop :=
  forall a b c s, ordered a b c ->
    exists r, test a b s = Ok r s /\ (r = true <-> exists d, c = Some d /\ rel d).

Lemma decides_eq : decides eq_test (fun c => c = Eq).
Proof.
  intros a b c s O. eexists. split; [apply eq_test_ordered; eauto|].
  destruct c as [[]|]; split; try easy; eauto; intros (d & E & ->); congruence.
Qed.
Lemma decides_cmp (test : value -> value -> M machine bool) g (rel : comparison -> Prop) :
  (forall a b s, test a b s = (c <- v_cmp a b ;; ret (g c)) s) -> g None = false ->
  (forall d, g (Some d) = true <-> rel d) -> decides test rel.
Proof.
  intros T GN GS a b c s O. exists (g c). rewrite T. unfold bind. rewrite (v_cmp_ordered _ _ _ s O).
  split; [reflexivity|]. destruct c as [d|].
  - rewrite GS. split; [eauto|]. intros (d' & E & R). congruence.
  - rewrite GN. split; [easy|]. intros (d & E & _). congruence.
Qed.
Lemma decides_lt : decides v_lt (fun c => c = Lt).
Proof. eapply decides_cmp; [intros; reflexivity|reflexivity|]. intros []; split; easy. Qed.
Lemma decides_gt : decides v_gt (fun c => c = Gt).
Proof. eapply decides_cmp; [intros; reflexivity|reflexivity|]. intros []; split; easy. Qed.
Lemma decides_le : decides v_le (fun c => c <> Gt).
Proof. eapply decides_cmp; [intros; reflexivity|reflexivity|]. intros []; split; easy. Qed.
Lemma decides_ge : decides v_ge (fun c => c <> Lt).
Proof. eapply decides_cmp; [intros; reflexivity|reflexivity|]. intros []; split; easy. Qed.

(** ** Comparison instructions *)

Theorem C47_compare : forall fuel p fr s code rel a b c l,
  comparison_code code rel -> code_here fr code -> x_operands s = b :: a :: l -> ordered a b c ->
  ((exists d, c = Some d /\ rel d) -> continues fr s 2 (VInt I32 1 :: l) (step fuel p fr s)) /\
  (~ (exists d, c = Some d /\ rel d) -> continues fr s 2 (VInt I32 0 :: l) (step fuel p fr s)).
Proof.
  intros fuel p fr s code rel a b c l CC C E O.
  assert (exists test, decides test rel /\ step fuel p fr s = compare (set_ip fr (fr_ip fr + 2)) test s)
    as (test & D & ->).
  { destruct CC; step_at2 C; eexists; (split; [|reflexivity]);
      auto using decides_eq, decides_gt, decides_lt. }
  destruct (D a b c (set_operands s l) O) as (r & R & I).
  assert (X : compare (set_ip fr (fr_ip fr + 2)) test s =
              (push (VInt I32 (if r then 1 else 0)) ;;; next (set_ip fr (fr_ip fr + 2))) (set_operands s l)).
  { unfold compare. rewrite (pop2_run s b a l E). unfold bind at 1. now rewrite R. }
  rewrite X. split; intro H.
  - apply I in H. rewrite H. now apply finish.
  - destruct r; [exfalso; apply H; now apply I|]. now apply finish.
Qed.

(** ** Branches *)

(** In range, the instruction pointer moves as if there were no limit to its size. *)
Lemma jump_at fr d : (0 <= Z.of_N (fr_ip fr) + d < 2 ^ 64)%Z ->
  Z.of_N (fr_ip (jump fr d)) = (Z.of_N (fr_ip fr) + d)%Z.
Proof.
  intro R. unfold jump, to_unsigned. cbn [fr_ip set_ip]. change (Z.of_N 64) with 64%Z.
  rewrite Z.mod_small by exact R. apply Z2N.id. lia.
Qed.

Lemma branch_to fr s n d l : (0 <= Z.of_N (fr_ip fr + n) + d < 2 ^ 64)%Z ->
  branches fr s n d l (next (jump (set_ip fr (fr_ip fr + n)) d) (set_operands s l)).
Proof.
  intro R. exists (jump (set_ip fr (fr_ip fr + n)) d), (set_operands s l), (fr_ip (jump (set_ip fr (fr_ip fr + n)) d)).
  split; [reflexivity|]. split; [unfold frame_at; cbn; auto 10|]. split; [|apply operands_set].
  now apply jump_at.
Qed.

Lemma stay fr s n l : continues fr s n l (next (set_ip fr (fr_ip fr + n)) (set_operands s l)).
Proof.
  exists (set_ip fr (fr_ip fr + n)), (set_operands s l). split; [reflexivity|].
  split; [apply frame_at_set|apply operands_set].
Qed.

(** The two conditional forms, with the operand already fetched. *)
Lemma br_cmp_run n fr s b a l bs test r : code_here fr bs -> len bs = n -> n <> 0 ->
  x_operands s = b :: a :: l -> test a b (set_operands s l) = Ok r (set_operands s l) ->
  br_cmp n fr test s =
    next (if r then jump (set_ip fr (fr_ip fr + n)) (signed_number bs) else set_ip fr (fr_ip fr + n)) (set_operands s l).
Proof.
  intros C L NZ E T. unfold br_cmp. rewrite (pop2_run s b a l E). unfold bind at 1.
  rewrite (il_signed_here fr bs n _ C L NZ). unfold bind. rewrite T. reflexivity.
Qed.

(** Each conditional branch goes to the displacement counted from the next instruction exactly when
    the operands are in its relation, and otherwise on to the next instruction. *)
Theorem C47_branch : forall fuel p fr s i n rel bs a b c l,
  branch_code i n rel -> code_here fr (i :: bs) -> List.length bs = n -> x_operands s = b :: a :: l ->
  ordered a b c -> (0 <= Z.of_N (fr_ip fr) + 1 + Z.of_nat n + signed_number bs < 2 ^ 64)%Z ->
  ((exists d, c = Some d /\ rel d) ->
     branches fr s (1 + N.of_nat n) (signed_number bs) l (step fuel p fr s)) /\
  (~ (exists d, c = Some d /\ rel d) -> continues fr s (1 + N.of_nat n) l (step fuel p fr s)).
Proof.
  intros fuel p fr s i n rel bs a b c l BC C L E O R.
  pose proof (code_here_drop fr [i] bs C) as C'. change (len [i]) with 1 in C'.
  assert (LB : len bs = N.of_nat n) by (unfold len; lia).
  assert (exists test, decides test rel /\
            step fuel p fr s = br_cmp (N.of_nat n) (set_ip fr (fr_ip fr + 1)) test s) as (test & D & ->).
  { apply code_here_prefix with (bs := [i]) (bs' := bs) in C.
    destruct BC; step_at C; eexists; (split; [|reflexivity]);
      auto using decides_eq, decides_gt, decides_lt, decides_ge, decides_le. }
  destruct (D a b c (set_operands s l) O) as (r & T & I).
  assert (NZ : N.of_nat n <> 0) by (destruct BC; easy).
  rewrite (br_cmp_run _ _ s b a l bs test r C' LB NZ E T).
  cbn [fr_ip set_ip]. 
  replace (set_ip (set_ip fr (fr_ip fr + 1)) (fr_ip fr + 1 + N.of_nat n))
    with (set_ip fr (fr_ip fr + (1 + N.of_nat n))) by (rewrite N.add_assoc; reflexivity).
  split; intro H.
  - apply I in H. rewrite H. apply branch_to. lia.
  - destruct r; [exfalso; apply H; now apply I|]. apply stay.
Qed.

Lemma zero_value_test v (s : machine) : numeric v ->
  exists r, is_null_or_zero v s = Ok r s /\ (r = true <-> zero_value v).
Proof.
  destruct v as [t x|b|b|o]; [| | |easy]; intros _; cbn [is_null_or_zero]; unfold ret; eexists; (split; [reflexivity|]).
  - rewrite Z.eqb_eq. split; [intros ->; constructor|]. now inversion 1.
  - unfold float_eq. destruct (nan_dec 23 8 b) as [N|N].
    + rewrite (cmp_nan single 23 8) by auto. split; [easy|]. inversion 1; subst. contradiction.
    + rewrite (cmp_measure single 23 8) by (auto || easy || (intros [_ K]; now apply K)).
      change (measure 23 8 0) with 0%Z. destruct (Z.compare_spec (measure 23 8 b) 0).
      * split; [intros _; now constructor|easy].
      * split; [easy|]. inversion 1; subst. lia.
      * split; [easy|]. inversion 1; subst. lia.
  - unfold float_eq. destruct (nan_dec 52 11 b) as [N|N].
    + rewrite (cmp_nan double 52 11) by auto. split; [easy|]. inversion 1; subst. contradiction.
    + rewrite (cmp_measure double 52 11) by (auto || easy || (intros [_ K]; now apply K)).
      change (measure 52 11 0) with 0%Z. destruct (Z.compare_spec (measure 52 11 b) 0).
      * split; [intros _; now constructor|easy].
      * split; [easy|]. inversion 1; subst. lia.
      * split; [easy|]. inversion 1; subst. lia.
Qed.

(** Brfalse is taken for zero, brtrue for everything else. *)
Theorem C47_branch_on_zero : forall fuel p fr s i n zero bs v l,
  zero_branch_code i n zero -> code_here fr (i :: bs) -> List.length bs = n -> x_operands s = v :: l ->
  numeric v -> (0 <= Z.of_N (fr_ip fr) + 1 + Z.of_nat n + signed_number bs < 2 ^ 64)%Z ->
  ((zero_value v <-> zero = true) ->
     branches fr s (1 + N.of_nat n) (signed_number bs) l (step fuel p fr s)) /\
  (~ (zero_value v <-> zero = true) -> continues fr s (1 + N.of_nat n) l (step fuel p fr s)).
Proof.
  intros fuel p fr s i n zero bs v l BC C L E NV R.
  pose proof (code_here_drop fr [i] bs C) as C'. change (len [i]) with 1 in C'.
  assert (LB : len bs = N.of_nat n) by (unfold len; lia).
  assert (NZ : N.of_nat n <> 0) by (destruct BC; easy).
  destruct (zero_value_test v (set_operands s l) NV) as (r & T & I).
  assert (X : step fuel p fr s =
    next (if Bool.eqb r zero then jump (set_ip fr (fr_ip fr + (1 + N.of_nat n))) (signed_number bs)
          else set_ip fr (fr_ip fr + (1 + N.of_nat n))) (set_operands s l)).
  { transitivity (br_if (N.of_nat n) (set_ip fr (fr_ip fr + 1)) zero s).
    - apply code_here_prefix with (bs := [i]) (bs' := bs) in C. destruct BC; step_at C; reflexivity.
    - unfold br_if, bind at 1. rewrite (il_signed_here _ bs _ s C' LB NZ).
      unfold bind. rewrite (pop_run s v l E). rewrite T. rewrite N.add_assoc. reflexivity. }
  rewrite X. split; intro H.
  - assert (r = zero) as ->. { destruct r, zero; try reflexivity; exfalso; intuition congruence. }
    rewrite Bool.eqb_reflx. apply branch_to. lia.
  - assert (Bool.eqb r zero = false) as ->; [|apply stay].
    apply Bool.eqb_false_iff. intros ->. apply H. now rewrite <- I.
Qed.

(** ** C49 *)

(** A jump continues at the displacement counted from the next instruction. *)
Theorem C49_jump : forall fuel p fr s i n bs,
  jump_code i n -> code_here fr (i :: bs) -> List.length bs = n ->
  (0 <= Z.of_N (fr_ip fr) + 1 + Z.of_nat n + signed_number bs < 2 ^ 64)%Z ->
  branches fr s (1 + N.of_nat n) (signed_number bs) (x_operands s) (step fuel p fr s).
Proof.
  intros fuel p fr s i n bs JC C L R.
  pose proof (code_here_drop fr [i] bs C) as C'. change (len [i]) with 1 in C'.
  assert (LB : len bs = N.of_nat n) by (unfold len; lia).
  assert (NZ : N.of_nat n <> 0) by (destruct JC; easy).
  assert (X : step fuel p fr s =
    next (jump (set_ip fr (fr_ip fr + (1 + N.of_nat n))) (signed_number bs)) (set_operands s (x_operands s))).
  { rewrite set_operands_same. transitivity (br (N.of_nat n) (set_ip fr (fr_ip fr + 1)) s).
    - apply code_here_prefix with (bs := [i]) (bs' := bs) in C. destruct JC; step_at C; reflexivity.
    - unfold br, bind at 1. rewrite (il_signed_here _ bs _ s C' LB NZ).
      rewrite N.add_assoc. reflexivity. }
  rewrite X. apply branch_to. lia.
Qed.

(** Conditional branches, when taken, do the same: whatever a branch instruction does, execution
    goes on either behind it or at the displacement counted from there. *)
Theorem C49_conditional : forall fuel p fr s i n bs fr' s',
  (exists rel, branch_code i n rel) \/ (exists zero, zero_branch_code i n zero) ->
  code_here fr (i :: bs) -> List.length bs = n ->
  (0 <= Z.of_N (fr_ip fr) + 1 + Z.of_nat n + signed_number bs < 2 ^ 64)%Z ->
  step fuel p fr s = Ok (ONext fr') s' ->
  frame_at fr fr' (fr_ip fr + 1 + N.of_nat n) \/
  exists ip, frame_at fr fr' ip /\ Z.of_N ip = (Z.of_N (fr_ip fr) + 1 + Z.of_nat n + signed_number bs)%Z.
Proof.
  intros fuel p fr s i n bs fr' s' BC C L R ST.
  pose proof (code_here_drop fr [i] bs C) as C'. change (len [i]) with 1 in C'.
  assert (LB : len bs = N.of_nat n) by (unfold len; lia).
  set (fr1 := set_ip fr (fr_ip fr + 1 + N.of_nat n)).
  assert (X : fr' = fr1 \/ fr' = jump fr1 (signed_number bs)).
  { apply code_here_prefix with (bs := [i]) (bs' := bs) in C.
    destruct BC as [[rel BC]|[zero BC]].
    - assert (exists test, step fuel p fr s = br_cmp (N.of_nat n) (set_ip fr (fr_ip fr + 1)) test s) as (test & Q)
        by (destruct BC; step_at C; eexists; reflexivity).
      assert (NZ : N.of_nat n <> 0) by (destruct BC; easy).
      rewrite Q in ST. unfold br_cmp, bind at 1 in ST. destruct (pop s) as [b s1|?|?|?|]; try easy.
      unfold bind at 1 in ST. destruct (pop s1) as [a s2|?|?|?|]; try easy.
      unfold bind at 1 in ST. rewrite (il_signed_here _ bs _ s2 C' LB NZ) in ST.
      unfold bind in ST. destruct (test a b s2) as [t s3|?|?|?|]; try easy. injection ST as <- _.
      destruct t; auto.
    - assert (Q : step fuel p fr s = br_if (N.of_nat n) (set_ip fr (fr_ip fr + 1)) zero s)
        by (destruct BC; step_at C; reflexivity).
      assert (NZ : N.of_nat n <> 0) by (destruct BC; easy).
      rewrite Q in ST. unfold br_if, bind at 1 in ST.
      rewrite (il_signed_here _ bs _ s C' LB NZ) in ST.
      unfold bind at 1 in ST. destruct (pop s) as [v s1|?|?|?|]; try easy.
      unfold bind in ST. destruct (is_null_or_zero v s1) as [t s2|?|?|?|]; try easy. injection ST as <- _.
      destruct (Bool.eqb t zero); auto. }
  destruct X as [-> | ->].
  - left. unfold fr1. apply frame_at_set.
  - right. exists (fr_ip (jump fr1 (signed_number bs))). split; [unfold frame_at; cbn; auto 10|].
    rewrite jump_at; unfold fr1; cbn [fr_ip set_ip]; lia.
Qed.

(** A displacement in front of the code stops the program with a panic, it reads nothing. *)
Theorem C49_before_the_code : forall fuel p fr s i n bs,
  jump_code i n -> code_here fr (i :: bs) -> List.length bs = n -> len (fr_code fr) < 2 ^ 62 ->
  (Z.of_N (fr_ip fr) + 1 + Z.of_nat n + signed_number bs < 0)%Z ->
  exists fr' s', step fuel p fr s = Ok (ONext fr') s' /\ forall fuel' s'', panics (step fuel' p fr' s'').
Proof.
  intros fuel p fr s i n bs JC C L CL R.
  pose proof (code_here_drop fr [i] bs C) as C'. change (len [i]) with 1 in C'.
  assert (LB : len bs = N.of_nat n) by (unfold len; lia).
  assert (NZ : N.of_nat n <> 0) by (destruct JC; easy).
  assert (B : (- 2 ^ 31 <= signed_number bs)%Z).
  { unfold signed_number. assert (0 <= number bs)%Z by (rewrite number_le_dec; lia). rewrite L.
    destruct JC; cbn [Z.of_nat Pos.of_succ_nat Pos.succ]; cbn -[number];
    match goal with |- context [Z.ltb ?a ?b] => destruct (Z.ltb_spec a b) end; lia. }
  set (fr1 := set_ip fr (fr_ip fr + 1 + N.of_nat n)).
  exists (jump fr1 (signed_number bs)), s. split.
  - transitivity (br (N.of_nat n) (set_ip fr (fr_ip fr + 1)) s).
    + apply code_here_prefix with (bs := [i]) (bs' := bs) in C. destruct JC; step_at C; reflexivity.
    + unfold br, bind at 1. rewrite (il_signed_here _ bs _ s C' LB NZ). reflexivity.
  - intros fuel' s''. eexists. unfold step, get_opcode, bind, code_at.
    assert (nth_error (fr_code (jump fr1 (signed_number bs))) (N.to_nat (fr_ip (jump fr1 (signed_number bs)))) = None) as ->;
      [|reflexivity].
    apply nth_error_None. unfold jump, to_unsigned, fr1. cbn [fr_ip set_ip fr_code]. unfold len in CL.
    change (Z.of_N 64) with 64%Z.
    rewrite <- (Zdiv.Zmod_unique _ (2 ^ 64) (-1) (Z.of_N (fr_ip fr + 1 + N.of_nat n) + signed_number bs + 2 ^ 64)); lia.
Qed.

(** ** Examples *)

(** 1.5 > -2.0; NaN is not equal to itself. *)
Example C47_example :
  continues (example_frame [xfe; x02; x2a]) (example_machine [VF64 0xc000000000000000; VF64 0x3ff8000000000000]) 2 [VInt I32 1]
    (step 0 Debug (example_frame [xfe; x02; x2a]) (example_machine [VF64 0xc000000000000000; VF64 0x3ff8000000000000])) /\
  continues (example_frame [xfe; x01; x2a]) (example_machine [VF32 0x7fc00000; VF32 0x7fc00000]) 2 [VInt I32 0]
    (step 0 Debug (example_frame [xfe; x01; x2a]) (example_machine [VF32 0x7fc00000; VF32 0x7fc00000])).
Proof.
  split.
  - refine (proj1 (C47_compare 0 Debug _ (example_machine [VF64 0xc000000000000000; VF64 0x3ff8000000000000]) _ _ _ _ _ [] is_cgt (example_code [xfe; x02] [x2a]) eq_refl
      (ordered_f64 _ _ _ _)) _).
    + intros [K _]. vm_compute in K. discriminate.
    + intros [K _]. vm_compute in K. discriminate.
    + exists Gt. split; vm_compute; reflexivity.
  - refine (proj2 (C47_compare 0 Debug _ (example_machine [VF32 0x7fc00000; VF32 0x7fc00000]) _ _ _ _ _ [] is_ceq (example_code [xfe; x01] [x2a]) eq_refl
      (unordered_f32 _ _ _)) _).
    + left. split; vm_compute; [reflexivity|discriminate].
    + intros (d & K & _). discriminate.
Qed.

(** A backward branch that is taken, and the same branch not taken. *)
Example C47_example_branch :
  branches (set_ip (example_frame [x00; x00; x32; xfc; x2a]) 2) (example_machine [VInt I32 5; VInt I32 3]) 2 (-4) []
    (step 0 Debug (set_ip (example_frame [x00; x00; x32; xfc; x2a]) 2) (example_machine [VInt I32 5; VInt I32 3])) /\
  continues (set_ip (example_frame [x00; x00; x32; xfc; x2a]) 2) (example_machine [VInt I32 5; VInt I32 5]) 2 []
    (step 0 Debug (set_ip (example_frame [x00; x00; x32; xfc; x2a]) 2) (example_machine [VInt I32 5; VInt I32 5])).
Proof.
  assert (C : code_here (set_ip (example_frame [x00; x00; x32; xfc; x2a]) 2) [x32; xfc])
    by (exists [x00; x00], [x2a]; split; reflexivity).
  split.
  - refine (proj1 (C47_branch 0 Debug _ (example_machine [VInt I32 5; VInt I32 3]) x32 1 _ [xfc] _ _ _ [] is_blt_s C eq_refl eq_refl (ordered_int _ _ _) _) _).
    + cbn. lia.
    + exists Lt. split; reflexivity.
  - refine (proj2 (C47_branch 0 Debug _ (example_machine [VInt I32 5; VInt I32 5]) x32 1 _ [xfc] _ _ _ [] is_blt_s C eq_refl eq_refl (ordered_int _ _ _) _) _).
    + cbn. lia.
    + intros (d & K & ->). discriminate.
Qed.

Example C47_example_zero :
  branches (example_frame [x2d; x05; x2a]) (example_machine [VInt I32 7]) 2 5 []
    (step 0 Debug (example_frame [x2d; x05; x2a]) (example_machine [VInt I32 7])).
Proof.
  refine (proj1 (C47_branch_on_zero 0 Debug _ (example_machine [VInt I32 7]) x2d 1 false [x05] _ [] is_brtrue_s (example_code [x2d; x05] [x2a])
    eq_refl eq_refl I _) _).
  - cbn. lia.
  - split; [inversion 1|discriminate].
Qed.

Example C49_example :
  branches (example_frame [x38; x00; x01; x00; x00; x2a]) (example_machine []) 5 256 []
    (step 0 Debug (example_frame [x38; x00; x01; x00; x00; x2a]) (example_machine [])).
Proof.
  refine (C49_jump 0 Debug _ (example_machine []) x38 4 [x00; x01; x00; x00] is_br (example_code [x38; x00; x01; x00; x00] [x2a]) eq_refl _).
  cbn. lia.
Qed.
Example C49_example_conditional :
  exists fr' s', step 0 Debug (example_frame [x2d; x05; x2a]) (example_machine [VInt I32 7]) = Ok (ONext fr') s' /\
    frame_at (example_frame [x2d; x05; x2a]) fr' 7.
Proof. eexists _, _. split; [vm_compute; reflexivity|]. unfold frame_at. cbn. auto 10. Qed.
Example C49_example_before :
  exists fr' s', step 0 Debug (example_frame [x2b; xf0; x2a]) (example_machine []) = Ok (ONext fr') s' /\
    forall fuel' s'', panics (step fuel' Debug fr' s'').
Proof.
  refine (C49_before_the_code 0 Debug _ (example_machine []) x2b 1 [xf0] is_br_s (example_code [x2b; xf0] [x2a]) eq_refl _ _); cbn; lia.
Qed.

Print Assumptions C47_compare.
Print Assumptions C47_branch.
Print Assumptions C47_branch_on_zero.
Print Assumptions C49_jump.
Print Assumptions C49_conditional.
Print Assumptions C49_before_the_code.

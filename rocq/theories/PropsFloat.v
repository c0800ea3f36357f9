(** Floating point arithmetic: C74. *)
From Coq Require Import NArith ZArith String List Bool Lia.
From Coq.Strings Require Import Byte.
From Verif Require Import Base BaseFacts Metadata Runtime Value Opcodes Gc Interp SpecExec InterpFacts DemoStates.
From Verif Require Import SpecIeee FloatFields FloatBits IeeeFacts PropsValue.
Import ListNotations.
Open Scope N_scope.

(** The instructions and the operations of IEEE 754. *)
Inductive float_instruction : byte -> operation -> Prop :=
| f_add : float_instruction x58 SpecIeee.Add
| f_sub : float_instruction x59 SpecIeee.Sub
| f_mul : float_instruction x5a SpecIeee.Mul
| f_div : float_instruction x5b SpecIeee.Div
| f_rem : float_instruction x5d SpecIeee.Rem.

Lemma neg_ok f mb eb a : fmbits f = mb -> f_ebits f = eb -> in_format mb eb a -> opposite mb eb a (float_neg f a).
Proof.
  intros <- <-. unfold opposite, in_format, negative, float_neg. set (w := fmbits f + f_ebits f). intro I.
  assert (D : N.lxor a (2 ^ w) / 2 ^ w = N.lxor (a / 2 ^ w) 1).
  { rewrite <- !N.shiftr_div_pow2, N.shiftr_lxor. f_equal. rewrite N.shiftr_div_pow2. apply N.div_same, N.pow_nonzero. lia. }
  assert (M : N.lxor a (2 ^ w) mod 2 ^ w = a mod 2 ^ w).
  { rewrite <- !N.land_ones. apply N.bits_inj. intro k. rewrite !N.land_spec, N.lxor_spec, N.pow2_bits_eqb.
    destruct (N.lt_ge_cases k w) as [L|L].
    - destruct (N.eqb_spec w k); [lia|]. now rewrite xorb_false_r.
    - rewrite N.ones_spec_high by exact L. now rewrite !andb_false_r. }
  assert (T : a / 2 ^ w < 2) by (apply N.div_lt_upper_bound; [apply N.pow_nonzero; lia|]; rewrite N.add_1_r, N.pow_succ_r' in I; lia).
  assert (H1 : a / 2 ^ w = 0 \/ a / 2 ^ w = 1) by (clear - T; generalize dependent (a / 2 ^ w); intros; lia).
  split; [|split; [|exact M]].
  - pose proof (N.div_mod (N.lxor a (2 ^ w)) (2 ^ w) ltac:(apply N.pow_nonzero; lia)) as X. rewrite D, M in X.
    assert (a mod 2 ^ w < 2 ^ w) by (apply N.mod_lt, N.pow_nonzero; lia). rewrite N.add_1_r, N.pow_succ_r'.
    assert (K : N.lxor (a / 2 ^ w) 1 <= 1) by (destruct H1 as [-> | ->]; [apply N.le_refl|apply N.le_0_l]).
    rewrite X. assert (2 ^ w * N.lxor (a / 2 ^ w) 1 <= 2 ^ w * 1) by (apply N.mul_le_mono_l; exact K). clear - H H0. lia.
  - rewrite D. now destruct H1 as [-> | ->].
Qed.

(** Single precision has 23 bits of fraction and 8 of exponent, double precision 52 and 11.  The result
    is the one that the standard prescribes, which is unique but for the payload of a NaN. *)
Theorem C74_double : forall fuel p fr s i o a b l,
  float_instruction i o -> code_here fr [i] -> x_operands s = VF64 b :: VF64 a :: l ->
  in_format 52 11 a -> in_format 52 11 b ->
  exists r, in_format 52 11 r /\ arithmetic 52 11 o a b r /\ continues fr s 1 (VF64 r :: l) (step fuel p fr s).
Proof.
  intros fuel p fr s i o a b l OP C E A B.
  assert (G : forall o', arithmetic 52 11 o a b (float_op double o' a b) ->
            step fuel p fr s = (push (VF64 (float_op double o' a b)) ;;; next (set_ip fr (fr_ip fr + 1))) (set_operands s l) ->
            exists r, in_format 52 11 r /\ arithmetic 52 11 o a b r /\ continues fr s 1 (VF64 r :: l) (step fuel p fr s)).
  { intros o' Ar R. exists (float_op double o' a b).
    split; [eapply arithmetic_in_format; [| |exact Ar|exact A|exact B]; lia|]. split; [exact Ar|]. rewrite R. now apply finish. }
  destruct OP.
  - apply (G FAdd); [apply add_ok; try reflexivity; try lia; assumption|]. step_at C. now rewrite (op2_run _ _ _ _ _ _ E).
  - apply (G FSub); [apply sub_ok; try reflexivity; try lia; assumption|]. step_at C. now rewrite (op2_run _ _ _ _ _ _ E).
  - apply (G FMul); [apply mul_ok; try reflexivity; try lia; assumption|]. step_at C. now rewrite (op2_run _ _ _ _ _ _ E).
  - apply (G FDiv); [apply div_ok; try reflexivity; try lia; assumption|]. step_at C. now rewrite (op2_run _ _ _ _ _ _ E).
  - apply (G FRem); [apply rem_ok; try reflexivity; try lia; assumption|]. step_at C. now rewrite (op2_run _ _ _ _ _ _ E).
Qed.

Theorem C74_single : forall fuel p fr s i o a b l,
  float_instruction i o -> code_here fr [i] -> x_operands s = VF32 b :: VF32 a :: l ->
  in_format 23 8 a -> in_format 23 8 b ->
  exists r, in_format 23 8 r /\ arithmetic 23 8 o a b r /\ continues fr s 1 (VF32 r :: l) (step fuel p fr s).
Proof.
  intros fuel p fr s i o a b l OP C E A B.
  assert (G : forall o', arithmetic 23 8 o a b (float_op single o' a b) ->
            step fuel p fr s = (push (VF32 (float_op single o' a b)) ;;; next (set_ip fr (fr_ip fr + 1))) (set_operands s l) ->
            exists r, in_format 23 8 r /\ arithmetic 23 8 o a b r /\ continues fr s 1 (VF32 r :: l) (step fuel p fr s)).
  { intros o' Ar R. exists (float_op single o' a b).
    split; [eapply arithmetic_in_format; [| |exact Ar|exact A|exact B]; lia|]. split; [exact Ar|]. rewrite R. now apply finish. }
  destruct OP.
  - apply (G FAdd); [apply add_ok; try reflexivity; try lia; assumption|]. step_at C. now rewrite (op2_run _ _ _ _ _ _ E).
  - apply (G FSub); [apply sub_ok; try reflexivity; try lia; assumption|]. step_at C. now rewrite (op2_run _ _ _ _ _ _ E).
  - apply (G FMul); [apply mul_ok; try reflexivity; try lia; assumption|]. step_at C. now rewrite (op2_run _ _ _ _ _ _ E).
  - apply (G FDiv); [apply div_ok; try reflexivity; try lia; assumption|]. step_at C. now rewrite (op2_run _ _ _ _ _ _ E).
  - apply (G FRem); [apply rem_ok; try reflexivity; try lia; assumption|]. step_at C. now rewrite (op2_run _ _ _ _ _ _ E).
Qed.

(** Neg flips the sign bit and keeps the others. *)
Theorem C74_neg : forall fuel p fr s l, code_here fr [x65] ->
  (forall a, x_operands s = VF64 a :: l -> in_format 52 11 a ->
     exists r, opposite 52 11 a r /\ continues fr s 1 (VF64 r :: l) (step fuel p fr s)) /\
  (forall a, x_operands s = VF32 a :: l -> in_format 23 8 a ->
     exists r, opposite 23 8 a r /\ continues fr s 1 (VF32 r :: l) (step fuel p fr s)).
Proof.
  intros fuel p fr s l C.
  split; intros a E I; [exists (float_neg double a)|exists (float_neg single a)];
    (split; [now apply neg_ok|step_at C; rewrite (op1_run _ _ _ _ _ E); now apply finish]).
Qed.

(** The specification leaves no choice but the payload and sign of a NaN. *)
Theorem C74_unique : forall mb eb o a b r r', 1 <= mb -> 2 <= eb ->
  arithmetic mb eb o a b r -> arithmetic mb eb o a b r' ->
  r = r' \/ (not_a_number mb eb r /\ not_a_number mb eb r').
Proof. intros mb eb o a b r r' M E. now apply arithmetic_unique. Qed.

(** ** Examples *)

(** 0.1 + 0.2 = 0.30000000000000004 *)
Example C74_ex_double : arithmetic 52 11 SpecIeee.Add 0x3fb999999999999a 0x3fc999999999999a 0x3fd3333333333334 /\
  continues (example_frame [x58; x2a]) (example_machine [VF64 0x3fc999999999999a; VF64 0x3fb999999999999a]) 1 [VF64 0x3fd3333333333334]
    (step 0 Debug (example_frame [x58; x2a]) (example_machine [VF64 0x3fc999999999999a; VF64 0x3fb999999999999a])).
Proof.
  destruct (C74_double 0 Debug (example_frame [x58; x2a]) (example_machine [VF64 0x3fc999999999999a; VF64 0x3fb999999999999a]) x58 _ 0x3fb999999999999a 0x3fc999999999999a []
    f_add (example_code [x58] [x2a]) eq_refl ltac:(reflexivity) ltac:(reflexivity)) as (r & I & A & C).
  assert (r = 0x3fd3333333333334); [|subst r; split; assumption].
  destruct C as (fr' & s' & R & _ & O). vm_compute in R.
  injection R as <- <-. destruct O as (_ & _ & _ & _ & _ & O). vm_compute in O. injection O as <-. reflexivity.
Qed.
(** 1 / 3, rounded up *)
Example C74_ex_single : arithmetic 23 8 SpecIeee.Div 0x3f800000 0x40400000 0x3eaaaaab /\
  continues (example_frame [x5b; x2a]) (example_machine [VF32 0x40400000; VF32 0x3f800000]) 1 [VF32 0x3eaaaaab]
    (step 0 Debug (example_frame [x5b; x2a]) (example_machine [VF32 0x40400000; VF32 0x3f800000])).
Proof.
  destruct (C74_single 0 Debug (example_frame [x5b; x2a]) (example_machine [VF32 0x40400000; VF32 0x3f800000]) x5b _ 0x3f800000 0x40400000 []
    f_div (example_code [x5b] [x2a]) eq_refl ltac:(reflexivity) ltac:(reflexivity)) as (r & I & A & C).
  assert (r = 0x3eaaaaab); [|subst r; split; assumption].
  destruct C as (fr' & s' & R & _ & O). vm_compute in R.
  injection R as <- <-. destruct O as (_ & _ & _ & _ & _ & O). vm_compute in O. injection O as <-. reflexivity.
Qed.
(** -5.5 rem 2.25 = -1 *)
Example C74_ex_rem : arithmetic 52 11 SpecIeee.Rem 0xc016000000000000 0x4002000000000000 0xbff0000000000000 /\
  continues (example_frame [x5d; x2a]) (example_machine [VF64 0x4002000000000000; VF64 0xc016000000000000]) 1 [VF64 0xbff0000000000000]
    (step 0 Debug (example_frame [x5d; x2a]) (example_machine [VF64 0x4002000000000000; VF64 0xc016000000000000])).
Proof.
  destruct (C74_double 0 Debug (example_frame [x5d; x2a]) (example_machine [VF64 0x4002000000000000; VF64 0xc016000000000000]) x5d _ 0xc016000000000000 0x4002000000000000 []
    f_rem (example_code [x5d] [x2a]) eq_refl ltac:(reflexivity) ltac:(reflexivity)) as (r & I & A & C).
  assert (r = 0xbff0000000000000); [|subst r; split; assumption].
  destruct C as (fr' & s' & R & _ & O). vm_compute in R.
  injection R as <- <-. destruct O as (_ & _ & _ & _ & _ & O). vm_compute in O. injection O as <-. reflexivity.
Qed.
(** The largest single times two is infinity, half of the smallest is zero, infinity minus infinity is not a number. *)
Example C74_ex_overflow : arithmetic 23 8 SpecIeee.Mul 0x7f7fffff 0x40000000 (infinity 23 8 false) /\
  arithmetic 23 8 SpecIeee.Mul 0x80000001 0x3f000000 (zero 23 8 true) /\
  arithmetic 23 8 SpecIeee.Sub (infinity 23 8 true) (infinity 23 8 true) 0x7fc00000.
Proof.
  split; [|split].
  - change (infinity 23 8 false) with (float_op single FMul 0x7f7fffff 0x40000000). now apply mul_ok.
  - change (zero 23 8 true) with (float_op single FMul 0x80000001 0x3f000000). now apply mul_ok.
  - change 0x7fc00000 with (float_op single FSub (infinity 23 8 true) (infinity 23 8 true)). now apply sub_ok.
Qed.
Example C74_ex_neg : exists r, opposite 52 11 0x3ff0000000000000 r /\
  continues (example_frame [x65; x2a]) (example_machine [VF64 0x3ff0000000000000]) 1 [VF64 r]
    (step 0 Debug (example_frame [x65; x2a]) (example_machine [VF64 0x3ff0000000000000])).
Proof.
  exact (proj1 (C74_neg 0 Debug (example_frame [x65; x2a]) (example_machine [VF64 0x3ff0000000000000]) [] (example_code [x65] [x2a])) 0x3ff0000000000000 eq_refl eq_refl).
Qed.
(** No other pattern is the quotient of 1 and 3. *)
Example C74_ex_unique : forall r, arithmetic 23 8 SpecIeee.Div 0x3f800000 0x40400000 r -> r = 0x3eaaaaab.
Proof.
  intros r A. destruct (C74_unique 23 8 _ _ _ r 0x3eaaaaab ltac:(easy) ltac:(easy) A (proj1 C74_ex_single)) as [H|[_ [_ [H _]]]]; [exact H|].
  discriminate H.
Qed.

Print Assumptions C74_double.
Print Assumptions C74_single.
Print Assumptions C74_neg.
Print Assumptions C74_unique.

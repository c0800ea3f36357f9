(** Arithmetic instructions: C44, C45 and C46. *)
From Coq Require Import NArith ZArith String List Bool Lia.
From Coq.Strings Require Import Byte.
From Verif Require Import Base BaseFacts Metadata Runtime Value Opcodes Gc Interp SpecExec InterpFacts DemoStates.
Import ListNotations.
Open Scope N_scope.

(** ** C44 *)

Inductive exact_operation : byte -> (Z -> Z -> Z) -> Prop :=
| is_add : exact_operation x58 Z.add
| is_sub : exact_operation x59 Z.sub
| is_mul : exact_operation x5a Z.mul.

Lemma arith_run {A} p t x (k : value -> M machine A) s :
  (v <- arith p t x ;; k v) s =
  if in_ity t x then k (VInt t x) s
  else match p with Debug => Panic "attempt to compute with overflow" | Release => k (VInt t (wrap t x)) s end.
Proof. unfold arith, bind. destruct (in_ity t x); [reflexivity|]. destruct p; reflexivity. Qed.

Lemma finish fr n s l v fr0 : fr_ip fr + n = fr_ip fr0 -> frame_at fr fr0 (fr_ip fr0) ->
  continues fr s n (v :: l) ((push v ;;; next fr0) (set_operands s l)).
Proof.
  intros I F. exists fr0, (set_operands s (v :: l)). split; [reflexivity|]. split.
  - now rewrite I.
  - apply operands_set.
Qed.

(** Add, sub and mul. *)
Theorem C44_add_sub_mul : forall fuel p fr s i f t a b l,
  exact_operation i f -> code_here fr [i] -> x_operands s = VInt t b :: VInt t a :: l ->
  fits t a -> fits t b ->
  (fits t (f a b) -> continues fr s 1 (VInt t (f a b) :: l) (step fuel p fr s)) /\
  (~ fits t (f a b) -> p = Debug -> panics (step fuel p fr s)) /\
  (~ fits t (f a b) -> p = Release ->
     exists r, twos_complement t (f a b) r /\ continues fr s 1 (VInt t r :: l) (step fuel p fr s)).
Proof.
  intros fuel p fr s i f t a b l OP C E A B.
  assert (R : step fuel p fr s =
              (v <- arith p t (f a b) ;; push v ;;; next (set_ip fr (fr_ip fr + 1))) (set_operands s l)).
  { destruct OP; step_at C; rewrite (op2_run _ _ _ _ _ _ E); unfold v_add, v_sub, v_mul, binary;
      now rewrite ity_eqb_refl. }
  rewrite R, arith_run. split; [|split].
  - intro F. apply in_ity_fits in F. rewrite F. now apply finish.
  - intros F ->. apply in_ity_out in F. rewrite F. now eexists.
  - intros F ->. apply in_ity_out in F. rewrite F. exists (wrap t (f a b)). split; [apply wrap_spec|].
    now apply finish.
Qed.

(** Neg. *)
Theorem C44_neg : forall fuel p fr s t a l,
  code_here fr [x65] -> x_operands s = VInt t a :: l -> fits t a -> signed t ->
  (fits t (- a)%Z -> continues fr s 1 (VInt t (- a) :: l) (step fuel p fr s)) /\
  (~ fits t (- a)%Z -> p = Debug -> panics (step fuel p fr s)) /\
  (~ fits t (- a)%Z -> p = Release ->
     exists r, twos_complement t (- a) r /\ continues fr s 1 (VInt t r :: l) (step fuel p fr s)).
Proof.
  intros fuel p fr s t a l C E A S.
  assert (R : step fuel p fr s =
              (v <- arith p t (- a) ;; push v ;;; next (set_ip fr (fr_ip fr + 1))) (set_operands s l)).
  { step_at C. rewrite (op1_run _ _ _ _ _ E). unfold v_neg.
    assert (isigned t = true) as -> by (destruct S as [->|[->|[->| ->]]]; reflexivity). reflexivity. }
  rewrite R, arith_run. split; [|split].
  - intro F. apply in_ity_fits in F. rewrite F. now apply finish.
  - intros F ->. apply in_ity_out in F. rewrite F. now eexists.
  - intros F ->. apply in_ity_out in F. rewrite F. exists (wrap t (- a)). split; [apply wrap_spec|].
    now apply finish.
Qed.

Inductive bit_operation : byte -> (bool -> bool -> bool) -> Prop :=
| is_and : bit_operation x5f andb
| is_or : bit_operation x60 orb
| is_xor : bit_operation x61 xorb.

(** And, or and xor. *)
Theorem C44_and_or_xor : forall fuel p fr s i g t a b l,
  bit_operation i g -> code_here fr [i] -> x_operands s = VInt t b :: VInt t a :: l ->
  fits t a -> fits t b ->
  exists r, fits t r /\
    (forall k, (0 <= k)%Z -> Z.testbit r k = g (Z.testbit a k) (Z.testbit b k)) /\
    continues fr s 1 (VInt t r :: l) (step fuel p fr s).
Proof.
  intros fuel p fr s i g t a b l OP C E A B.
  assert (exists r, (forall k, (0 <= k)%Z -> Z.testbit r k = g (Z.testbit a k) (Z.testbit b k)) /\
            continues fr s 1 (VInt t r :: l) (step fuel p fr s)) as (r & R & K).
  { destruct OP; [exists (Z.land a b)|exists (Z.lor a b)|exists (Z.lxor a b)];
      (split; [intros k K|]); try (step_at C; rewrite (op2_run _ _ _ _ _ _ E);
        unfold v_and, v_or, v_xor, binary; rewrite ity_eqb_refl; now apply finish).
    - apply Z.land_spec.
    - apply Z.lor_spec.
    - apply Z.lxor_spec. }
  exists r. split; [|auto]. eapply bitwise_fits; eauto. now destruct OP.
Qed.

(** Not: the complement of every bit of the type. *)
Theorem C44_not : forall fuel p fr s t a l,
  code_here fr [x66] -> x_operands s = VInt t a :: l -> fits t a ->
  exists r, fits t r /\
    (forall k, (0 <= k < width t)%Z -> Z.testbit r k = negb (Z.testbit a k)) /\
    continues fr s 1 (VInt t r :: l) (step fuel p fr s).
Proof.
  intros fuel p fr s t a l C E A.
  exists (if isigned t then Z.lnot a else imax t - a)%Z. split; [|split].
  - assert (L : forall z, Z.lnot z = (- z - 1)%Z) by (intro; unfold Z.lnot; lia).
    clear - A L. destruct t; cbn [isigned fits] in A |- *; rewrite ?L;
      try match goal with |- context [imax ?u] => let v := eval vm_compute in (imax u) in change (imax u) with v end; lia.
  - intros k K. destruct (isigned t) eqn:S; [apply Z.lnot_spec; lia|].
    assert (imax t - a = Z.lxor a (Z.ones (width t)))%Z as ->.
    { transitivity (Z.ones (width t) - a)%Z; [destruct t; reflexivity || easy|].
      transitivity (Z.ldiff (Z.ones (width t)) a).
      - apply Z.sub_nocarry_ldiff. apply Z.bits_inj'. intros i I. rewrite Z.ldiff_spec, Z.bits_0.
        destruct (Z.lt_ge_cases i (width t)).
        + rewrite Z.ones_spec_low by lia. apply andb_false_r.
        + apply fits_bits in A. rewrite S in A. rewrite unsigned_range_bits in A by (destruct t; easy).
          now rewrite A by lia.
      - apply Z.bits_inj'. intros i I. rewrite Z.ldiff_spec, Z.lxor_spec.
        destruct (Z.lt_ge_cases i (width t)).
        + rewrite Z.ones_spec_low by lia. now destruct (Z.testbit a i).
        + rewrite Z.ones_spec_high by (destruct t; cbn in *; lia).
          apply fits_bits in A. rewrite S in A. rewrite unsigned_range_bits in A by (destruct t; easy).
          now rewrite A by lia. }
    rewrite Z.lxor_spec, Z.ones_spec_low by lia. now destruct (Z.testbit a k).
  - step_at C. rewrite (op1_run _ _ _ _ _ E). now apply finish.
Qed.

(** Shifts by less than the number of bits.  (ECMA-335 leaves other amounts open; here a debug build
    panics, and a release build does what C44_shl_release and C44_shr_release say.) *)
Theorem C44_shl : forall fuel p fr s t a n l,
  code_here fr [x62] -> x_operands s = VInt t n :: VInt t a :: l -> fits t a -> fits t n ->
  ((0 <= n < width t)%Z ->
     exists r, twos_complement t (a * 2 ^ n) r /\ continues fr s 1 (VInt t r :: l) (step fuel p fr s)) /\
  (~ (0 <= n < width t)%Z -> p = Debug -> panics (step fuel p fr s)).
Proof.
  intros fuel p fr s t a n l C E A B.
  step_at C. rewrite (op2_run _ _ _ _ _ _ E). unfold v_shl, binary, shift_amount. rewrite ity_eqb_refl.
  rewrite width_bits. unfold bind.
  destruct (Z.leb_spec 0 n), (Z.ltb_spec n (width t)); cbn [andb]; split; try lia.
  - intros _. exists (wrap t (a * 2 ^ n)). rewrite <- Z.shiftl_mul_pow2 by lia.
    split; [apply wrap_spec|]. now apply finish.
  - intros _ ->. now eexists.
  - intros _ ->. now eexists.
  - intros _ ->. now eexists.
Qed.

Theorem C44_shr : forall fuel p fr s t a n l,
  code_here fr [x63] -> x_operands s = VInt t n :: VInt t a :: l -> fits t a -> fits t n ->
  ((0 <= n < width t)%Z ->
     exists r, fits t r /\ (r * 2 ^ n <= a < (r + 1) * 2 ^ n)%Z /\
       continues fr s 1 (VInt t r :: l) (step fuel p fr s)) /\
  (~ (0 <= n < width t)%Z -> p = Debug -> panics (step fuel p fr s)).
Proof.
  intros fuel p fr s t a n l C E A B.
  step_at C. rewrite (op2_run _ _ _ _ _ _ E). unfold v_shr, binary, shift_amount. rewrite ity_eqb_refl.
  rewrite width_bits. unfold bind.
  destruct (Z.leb_spec 0 n), (Z.ltb_spec n (width t)); cbn [andb]; split; try lia.
  - intros _. exists (Z.shiftr a n). pose proof (Z.shiftr_div_pow2 a n ltac:(lia)) as D.
    assert (P : (0 < 2 ^ n)%Z) by (apply Z.pow_pos_nonneg; lia).
    assert (Q : (a / 2 ^ n * 2 ^ n <= a < (a / 2 ^ n + 1) * 2 ^ n)%Z).
    { pose proof (Z.div_mod a (2 ^ n) ltac:(lia)). pose proof (Z.mod_pos_bound a (2 ^ n) P). nia. }
    split; [|split; [now rewrite D|now apply finish]]. rewrite D.
    assert ((0 <= a -> 0 <= a / 2 ^ n <= a) /\ (a < 0 -> a <= a / 2 ^ n < 0))%Z by (split; intro; nia).
    destruct t; cbn in *; lia.
  - intros _ ->. now eexists.
  - intros _ ->. now eexists.
  - intros _ ->. now eexists.
Qed.

(** Other amounts: a release build shifts by the amount that remains after whole widths are taken off. *)
Theorem C44_shl_release : forall fuel fr s t a n l,
  code_here fr [x62] -> x_operands s = VInt t n :: VInt t a :: l -> fits t a -> fits t n ->
  exists d r, (0 <= d < width t)%Z /\ (exists k, n = d + k * width t)%Z /\
    twos_complement t (a * 2 ^ d) r /\ continues fr s 1 (VInt t r :: l) (step fuel Release fr s).
Proof.
  intros fuel fr s t a n l C E A B. assert (WP : (0 < width t)%Z) by (destruct t; reflexivity).
  assert (SA : exists d, (0 <= d < width t)%Z /\ (exists k, n = d + k * width t)%Z /\ forall s : machine, shift_amount Release t n s = Ok d s).
  { unfold shift_amount. rewrite width_bits. destruct (Z.leb_spec 0 n), (Z.ltb_spec n (width t)); cbn [andb].
    1: exists n; split; [lia|]; split; [exists 0%Z; lia|reflexivity].
    all: exists (n mod width t)%Z; split; [apply Z.mod_pos_bound; lia|]; split; [|reflexivity];
      exists (n / width t)%Z; pose proof (Z.div_mod n (width t) ltac:(lia)); lia. }
  destruct SA as (d & D & K & SA). exists d, (wrap t (a * 2 ^ d)). split; [exact D|]. split; [exact K|].
  split; [apply wrap_spec|].
  step_at C. rewrite (op2_run _ _ _ _ _ _ E). unfold v_shl, binary. rewrite ity_eqb_refl.
  unfold bind. rewrite SA. rewrite Z.shiftl_mul_pow2 by lia. now apply finish.
Qed.

Theorem C44_shr_release : forall fuel fr s t a n l,
  code_here fr [x63] -> x_operands s = VInt t n :: VInt t a :: l -> fits t a -> fits t n ->
  exists d r, (0 <= d < width t)%Z /\ (exists k, n = d + k * width t)%Z /\
    fits t r /\ (r * 2 ^ d <= a < (r + 1) * 2 ^ d)%Z /\ continues fr s 1 (VInt t r :: l) (step fuel Release fr s).
Proof.
  intros fuel fr s t a n l C E A B. assert (WP : (0 < width t)%Z) by (destruct t; reflexivity).
  assert (SA : exists d, (0 <= d < width t)%Z /\ (exists k, n = d + k * width t)%Z /\ forall s : machine, shift_amount Release t n s = Ok d s).
  { unfold shift_amount. rewrite width_bits. destruct (Z.leb_spec 0 n), (Z.ltb_spec n (width t)); cbn [andb].
    1: exists n; split; [lia|]; split; [exists 0%Z; lia|reflexivity].
    all: exists (n mod width t)%Z; split; [apply Z.mod_pos_bound; lia|]; split; [|reflexivity];
      exists (n / width t)%Z; pose proof (Z.div_mod n (width t) ltac:(lia)); lia. }
  destruct SA as (d & D & K & SA). exists d, (Z.shiftr a d). split; [exact D|]. split; [exact K|].
  pose proof (Z.shiftr_div_pow2 a d ltac:(lia)) as V.
  assert (P : (0 < 2 ^ d)%Z) by (apply Z.pow_pos_nonneg; lia).
  assert (Q : (a / 2 ^ d * 2 ^ d <= a < (a / 2 ^ d + 1) * 2 ^ d)%Z).
  { pose proof (Z.div_mod a (2 ^ d) ltac:(lia)). pose proof (Z.mod_pos_bound a (2 ^ d) P). nia. }
  split; [|split; [now rewrite V|]].
  - rewrite V.
    assert ((0 <= a -> 0 <= a / 2 ^ d <= a) /\ (a < 0 -> a <= a / 2 ^ d < 0))%Z by (split; intro; nia).
    clear - H A. destruct t; cbn in *; lia.
  - step_at C. rewrite (op2_run _ _ _ _ _ _ E). unfold v_shr, binary. rewrite ity_eqb_refl.
    unfold bind. rewrite SA. now apply finish.
Qed.

(** ** C45 *)

(** Truncation toward zero, the remainder with the sign of the dividend. *)
Definition quotient_remainder (a b q r : Z) : Prop :=
  (a = q * b + r)%Z /\ (Z.abs r < Z.abs b)%Z /\ (r = 0 \/ Z.sgn r = Z.sgn a)%Z.

Lemma quot_rem_spec a b : b <> 0%Z -> quotient_remainder a b (Z.quot a b) (Z.rem a b).
Proof.
  intro NZ. split; [|split].
  - pose proof (Z.quot_rem a b NZ). lia.
  - now apply Z.rem_bound_abs.
  - destruct (Z.eq_dec (Z.rem a b) 0); [auto|]. right. now apply Z.rem_sign_nz.
Qed.

Lemma rem_fits t a b : fits t a -> b <> 0%Z -> fits t (Z.rem a b).
Proof.
  intros A NZ. destruct (quot_rem_spec a b NZ) as (E & L & S).
  assert (Z.abs (Z.rem a b) <= Z.abs a)%Z.
  { destruct (Z.eq_dec a 0); [subst; rewrite Z.rem_0_l by auto; lia|].
    pose proof (Z.rem_le (Z.abs a) (Z.abs b) ltac:(lia) ltac:(lia)).
    rewrite <- (Z.rem_abs a b NZ). lia. }
  assert (Z.rem a b = 0 \/ Z.sgn (Z.rem a b) = Z.sgn a)%Z as [->|G] by auto; destruct t; cbn in *; lia.
Qed.

Theorem C45_div_rem : forall fuel p fr s i t a b l,
  i = x5b \/ i = x5d -> code_here fr [i] -> x_operands s = VInt t b :: VInt t a :: l ->
  fits t a -> fits t b ->
  (forall q r, quotient_remainder a b q r -> fits t q ->
     fits t r /\ continues fr s 1 (VInt t (if Byte.eqb i x5b then q else r) :: l) (step fuel p fr s)) /\
  ((b = 0%Z \/ (forall q r, quotient_remainder a b q r -> ~ fits t q)) -> panics (step fuel p fr s)).
Proof.
  intros fuel p fr s i t a b l I C E A B.
  assert (U : forall q r, quotient_remainder a b q r -> b <> 0%Z -> q = Z.quot a b /\ r = Z.rem a b).
  { intros q r (Q1 & Q2 & Q3) NZ. destruct (quot_rem_spec a b NZ) as (R1 & R2 & R3).
    revert R1 R2 R3. generalize (Z.quot a b) (Z.rem a b). intros q' r' R1 R2 R3.
    assert (L : (Z.abs (r' - r) < Z.abs b)%Z) by lia.
    assert (M : ((q - q') * b = r' - r)%Z) by lia.
    assert (q - q' = 0)%Z; [|nia].
    destruct (Z.eq_dec (q - q') 0); [auto|]. exfalso.
    assert (Z.abs b <= Z.abs ((q - q') * b))%Z by (rewrite Z.abs_mul; nia). lia. }
  split.
  - intros q r Q F.
    assert (NZ : b <> 0%Z) by (intros ->; destruct Q as (_ & Q & _); cbn in Q; lia).
    destruct (U q r Q NZ) as [-> ->]. split; [now apply rem_fits|].
    apply in_ity_fits in F. apply Z.eqb_neq in NZ.
    destruct I as [-> | ->]; step_at C; rewrite (op2_run _ _ _ _ _ _ E);
      unfold v_div, v_rem, binary, int_div, int_rem; rewrite ity_eqb_refl, NZ, F; now apply finish.
  - intro H.
    assert (N : (b =? 0)%Z = true \/ (b =? 0)%Z = false /\ in_ity t (Z.quot a b) = false).
    { destruct (Z.eqb_spec b 0); [auto|]. right. split; auto. destruct H as [|H]; [easy|].
      apply in_ity_out. eapply H. now apply quot_rem_spec. }
    destruct I as [-> | ->]; step_at C; rewrite (op2_run _ _ _ _ _ _ E);
      unfold v_div, v_rem, binary, int_div, int_rem; rewrite ity_eqb_refl;
      destruct N as [-> | [-> ->]]; now eexists.
Qed.

(** ** C46 *)

(** Cgt.un and clt.un compare signed operands as signed numbers: whenever the operands differ in
    sign, the answer is wrong. *)
Theorem C46_unsigned_comparison_refuted : forall fuel p fr s t a b l,
  signed t -> code_here fr [xfe; x03] -> x_operands s = VInt t b :: VInt t a :: l ->
  fits t a -> fits t b -> (a < 0 <= b)%Z ->
  (as_unsigned t a > as_unsigned t b)%Z /\ continues fr s 2 (VInt I32 0 :: l) (step fuel p fr s).
Proof.
  intros fuel p fr s t a b l S C E A B N. split.
  - unfold as_unsigned. destruct (Z.ltb_spec a 0), (Z.ltb_spec b 0); try lia.
    destruct S as [->|[->|[->| ->]]]; cbn in *; lia.
  - step_at2 C. unfold compare. rewrite (pop2_run s _ _ _ E). unfold v_gt, v_cmp, bind at 1 2.
    rewrite ity_eqb_refl. unfold ret.
    destruct (Z.compare_spec a b); try lia. now apply finish.
Qed.

(** Div.un divides signed operands as signed numbers: a negative dividend never gives the unsigned
    quotient unless the divisor is the negative of a power of two or the like; here for the
    divisor 2. *)
Theorem C46_unsigned_division_refuted : forall fuel p fr s t a l,
  signed t -> code_here fr [x5c] -> x_operands s = VInt t 2 :: VInt t a :: l ->
  fits t a -> (a < -1)%Z ->
  exists r, (r < 0)%Z /\ (0 < as_unsigned t a / 2)%Z /\ fits t (as_unsigned t a / 2) /\
    continues fr s 1 (VInt t r :: l) (step fuel p fr s).
Proof.
  intros fuel p fr s t a l S C E A N. exists (Z.quot a 2).
  assert (Q : (a <= Z.quot a 2 < 0)%Z).
  { pose proof (Z.quot_opp_l a 2 ltac:(lia)). rewrite (Z.quot_div_nonneg (- a) 2) in H by lia. lia. }
  split; [lia|]. split; [|split].
  - unfold as_unsigned. destruct (Z.ltb_spec a 0); [|lia].
    destruct S as [->|[->|[->| ->]]]; cbn in *; lia.
  - unfold as_unsigned. destruct (Z.ltb_spec a 0); [|lia].
    destruct S as [->|[->|[->| ->]]]; cbn in *; lia.
  - step_at C. rewrite (op2_run _ _ _ _ _ _ E). unfold v_div, binary, int_div. rewrite ity_eqb_refl.
    assert (in_ity t (Z.quot a 2) = true) as F.
    { apply in_ity_fits. destruct S as [->|[->|[->| ->]]]; cbn in *; lia. }
    rewrite F. now apply finish.
Qed.

(** What holds: the four instructions are right when neither operand is negative (in particular for
    operands of unsigned type).  The unsigned branches (bge.un and so on) are not implemented at
    all, see C59. *)
Theorem C46_unsigned_partial : forall fuel p fr s t a b l,
  x_operands s = VInt t b :: VInt t a :: l -> fits t a -> fits t b -> (0 <= a)%Z -> (0 <= b)%Z ->
  (code_here fr [xfe; x03] ->
     continues fr s 2 (VInt I32 (if (as_unsigned t a >? as_unsigned t b)%Z then 1 else 0) :: l) (step fuel p fr s)) /\
  (code_here fr [xfe; x05] ->
     continues fr s 2 (VInt I32 (if (as_unsigned t a <? as_unsigned t b)%Z then 1 else 0) :: l) (step fuel p fr s)) /\
  (code_here fr [x5c] -> (0 < b)%Z ->
     continues fr s 1 (VInt t (as_unsigned t a / as_unsigned t b) :: l) (step fuel p fr s)) /\
  (code_here fr [x5e] -> (0 < b)%Z ->
     continues fr s 1 (VInt t (as_unsigned t a mod as_unsigned t b) :: l) (step fuel p fr s)) /\
  (code_here fr [x5c] \/ code_here fr [x5e] -> b = 0%Z -> panics (step fuel p fr s)).
Proof.
  intros fuel p fr s t a b l E A B PA PB.
  assert (as_unsigned t a = a /\ as_unsigned t b = b) as [-> ->].
  { unfold as_unsigned. destruct (Z.ltb_spec a 0), (Z.ltb_spec b 0); lia. }
  split; [|split; [|split; [|split]]].
  - intro C. step_at2 C. unfold compare. rewrite (pop2_run s _ _ _ E). unfold v_gt, v_cmp, bind at 1 2.
    rewrite ity_eqb_refl. unfold ret. unfold Z.gtb.
    destruct (a ?= b)%Z; now apply finish.
  - intro C. step_at2 C. unfold compare. rewrite (pop2_run s _ _ _ E). unfold v_lt, v_cmp, bind at 1 2.
    rewrite ity_eqb_refl. unfold ret. unfold Z.ltb. destruct (a ?= b)%Z; now apply finish.
  - intros C P. step_at C. rewrite (op2_run _ _ _ _ _ _ E). unfold v_div, binary, int_div.
    rewrite ity_eqb_refl. destruct (Z.eqb_spec b 0); [lia|].
    rewrite Z.quot_div_nonneg by lia.
    assert (in_ity t (a / b) = true) as ->; [|now apply finish].
    apply in_ity_fits. assert (0 <= a / b <= a)%Z by (split; [apply Z.div_pos; lia|apply Z.div_le_upper_bound; nia]).
    destruct t; cbn in *; lia.
  - intros C P. step_at C. rewrite (op2_run _ _ _ _ _ _ E). unfold v_rem, binary, int_rem.
    rewrite ity_eqb_refl. destruct (Z.eqb_spec b 0); [lia|].
    rewrite Z.quot_div_nonneg, Z.rem_mod_nonneg by lia.
    assert (in_ity t (a / b) = true) as ->; [|now apply finish].
    apply in_ity_fits. assert (0 <= a / b <= a)%Z by (split; [apply Z.div_pos; lia|apply Z.div_le_upper_bound; nia]).
    destruct t; cbn in *; lia.
  - intros [C|C] ->; step_at C; rewrite (op2_run _ _ _ _ _ _ E); unfold v_div, v_rem, binary, int_div, int_rem;
      rewrite ity_eqb_refl; now eexists.
Qed.

(** ** Examples *)

(** A frame at the start of the given code, and a machine with the given operands. *)
Definition example_method : method_info := mkMethod [] 0%nat 0%nat [] INone true false false.
Definition example_frame (code : list byte) : frame := mkFrame example_method 2%nat code 0 CHost CHost.
Definition example_machine (l : list value) : machine := set_operands (new_machine demo_app []) l.

Lemma example_code bs after : code_here (example_frame (bs ++ after)) bs.
Proof. exists [], after. split; reflexivity. Qed.

(** 2147483647 + 1 panics or becomes -2147483648; -7 / 2 is -3; -7 rem 2 is -1. *)
Example C44_example : exists r, twos_complement I32 (2147483647 + 1) r /\
  continues (example_frame [x58; x2a]) (example_machine [VInt I32 1; VInt I32 2147483647]) 1 [VInt I32 r]
    (step 0 Release (example_frame [x58; x2a]) (example_machine [VInt I32 1; VInt I32 2147483647])).
Proof.
  refine (proj2 (proj2 (C44_add_sub_mul 0 Release _ (example_machine [VInt I32 1; VInt I32 2147483647]) x58 Z.add I32 2147483647 1 [] is_add (example_code [x58] [x2a])
    eq_refl _ _)) _ eq_refl); cbn; lia.
Qed.
Example C44_example_neg : exists r, twos_complement I64 (- (-9223372036854775808)) r /\
  continues (example_frame [x65; x2a]) (example_machine [VInt I64 (-9223372036854775808)]) 1 [VInt I64 r]
    (step 0 Release (example_frame [x65; x2a]) (example_machine [VInt I64 (-9223372036854775808)])).
Proof.
  refine (proj2 (proj2 (C44_neg 0 Release _ (example_machine [VInt I64 (-9223372036854775808)]) I64 (-9223372036854775808) [] (example_code [x65] [x2a]) eq_refl _ _)) _ eq_refl);
    [cbn; lia|unfold signed; auto|cbn; lia].
Qed.
Example C44_example_bits : exists r, fits I32 r /\
    (forall k, (0 <= k)%Z -> Z.testbit r k = xorb (Z.testbit (-1) k) (Z.testbit 5 k)) /\
    continues (example_frame [x61; x2a]) (example_machine [VInt I32 5; VInt I32 (-1)]) 1 [VInt I32 r]
      (step 0 Debug (example_frame [x61; x2a]) (example_machine [VInt I32 5; VInt I32 (-1)])).
Proof.
  refine (C44_and_or_xor 0 Debug _ (example_machine [VInt I32 5; VInt I32 (-1)]) x61 xorb I32 (-1) 5 [] is_xor (example_code [x61] [x2a]) eq_refl _ _); cbn; lia.
Qed.
Example C44_example_not : exists r, fits U8 r /\
    (forall k, (0 <= k < width U8)%Z -> Z.testbit r k = negb (Z.testbit 5 k)) /\
    continues (example_frame [x66; x2a]) (example_machine [VInt U8 5]) 1 [VInt U8 r]
      (step 0 Debug (example_frame [x66; x2a]) (example_machine [VInt U8 5])).
Proof. refine (C44_not 0 Debug _ (example_machine [VInt U8 5]) U8 5 [] (example_code [x66] [x2a]) eq_refl _). cbn; lia. Qed.
Example C44_example_shl : exists r, twos_complement I32 (3 * 2 ^ 31) r /\
    continues (example_frame [x62; x2a]) (example_machine [VInt I32 31; VInt I32 3]) 1 [VInt I32 r]
      (step 0 Debug (example_frame [x62; x2a]) (example_machine [VInt I32 31; VInt I32 3])).
Proof. refine (proj1 (C44_shl 0 Debug _ (example_machine [VInt I32 31; VInt I32 3]) I32 3 31 [] (example_code [x62] [x2a]) eq_refl _ _) _); cbn; lia. Qed.
Example C44_example_shr : exists r, fits I32 r /\ (r * 2 ^ 1 <= -7 < (r + 1) * 2 ^ 1)%Z /\
    continues (example_frame [x63; x2a]) (example_machine [VInt I32 1; VInt I32 (-7)]) 1 [VInt I32 r]
      (step 0 Debug (example_frame [x63; x2a]) (example_machine [VInt I32 1; VInt I32 (-7)])).
Proof. refine (proj1 (C44_shr 0 Debug _ (example_machine [VInt I32 1; VInt I32 (-7)]) I32 (-7) 1 [] (example_code [x63] [x2a]) eq_refl _ _) _); cbn; lia. Qed.
(** In a release build, 3 shifted left by 33 is 3 shifted by 1, and -7 shifted right by -31 is -7 shifted by 1. *)
Example C44_shl_release_ex : exists d r, (0 <= d < 32)%Z /\ (exists k, 33 = d + k * 32)%Z /\ twos_complement I32 (3 * 2 ^ d) r /\
  continues (example_frame ([x62] ++ [x2a])) (example_machine [VInt I32 33; VInt I32 3]) 1 [VInt I32 r]
    (step 0 Release (example_frame ([x62] ++ [x2a])) (example_machine [VInt I32 33; VInt I32 3])).
Proof. refine (C44_shl_release 0 _ (example_machine [VInt I32 33; VInt I32 3]) I32 3 33 [] (example_code [x62] [x2a]) eq_refl _ _); cbn; lia. Qed.
Example C44_shr_release_ex : exists d r, (0 <= d < 32)%Z /\ (exists k, -31 = d + k * 32)%Z /\
  fits I32 r /\ (r * 2 ^ d <= -7 < (r + 1) * 2 ^ d)%Z /\
  continues (example_frame ([x63] ++ [x2a])) (example_machine [VInt I32 (-31); VInt I32 (-7)]) 1 [VInt I32 r]
    (step 0 Release (example_frame ([x63] ++ [x2a])) (example_machine [VInt I32 (-31); VInt I32 (-7)])).
Proof. refine (C44_shr_release 0 _ (example_machine [VInt I32 (-31); VInt I32 (-7)]) I32 (-7) (-31) [] (example_code [x63] [x2a]) eq_refl _ _); cbn; lia. Qed.

Example C45_example :
  continues (example_frame [x5b; x2a]) (example_machine [VInt I32 2; VInt I32 (-7)]) 1 [VInt I32 (-3)]
    (step 0 Debug (example_frame [x5b; x2a]) (example_machine [VInt I32 2; VInt I32 (-7)])) /\
  panics (step 0 Release (example_frame [x5d; x2a]) (example_machine [VInt I32 (-1); VInt I32 (-2147483648)])).
Proof.
  split.
  - refine (proj2 (proj1 (C45_div_rem 0 Debug _ (example_machine [VInt I32 2; VInt I32 (-7)]) x5b I32 (-7) 2 [] (or_introl eq_refl) (example_code [x5b] [x2a]) eq_refl _ _)
      (-3)%Z (-1)%Z _ _)); [cbn; lia|cbn; lia|unfold quotient_remainder; cbn; lia|cbn; lia].
  - refine (proj2 (C45_div_rem 0 Release _ (example_machine [VInt I32 (-1); VInt I32 (-2147483648)]) x5d I32 (-2147483648) (-1) [] (or_intror eq_refl) (example_code [x5d] [x2a]) eq_refl _ _) _);
      [cbn; lia|cbn; lia|]. right. unfold quotient_remainder. intros q r H. cbn. lia.
Qed.

Example C46_example_comparison :
  (as_unsigned I32 (-1) > as_unsigned I32 1)%Z /\
  continues (example_frame [xfe; x03; x2a]) (example_machine [VInt I32 1; VInt I32 (-1)]) 2 [VInt I32 0]
    (step 0 Release (example_frame [xfe; x03; x2a]) (example_machine [VInt I32 1; VInt I32 (-1)])).
Proof.
  refine (C46_unsigned_comparison_refuted 0 Release _ (example_machine [VInt I32 1; VInt I32 (-1)]) I32 (-1) 1 [] _ (example_code [xfe; x03] [x2a]) eq_refl _ _ _);
    [unfold signed; auto|cbn; lia..].
Qed.
Example C46_example_division : exists r, (r < 0)%Z /\ (0 < as_unsigned I32 (-4) / 2)%Z /\
  fits I32 (as_unsigned I32 (-4) / 2) /\
  continues (example_frame [x5c; x2a]) (example_machine [VInt I32 2; VInt I32 (-4)]) 1 [VInt I32 r]
    (step 0 Release (example_frame [x5c; x2a]) (example_machine [VInt I32 2; VInt I32 (-4)])).
Proof.
  refine (C46_unsigned_division_refuted 0 Release _ (example_machine [VInt I32 2; VInt I32 (-4)]) I32 (-4) [] _ (example_code [x5c] [x2a]) eq_refl _ _);
    [unfold signed; auto|cbn; lia|lia].
Qed.
Example C46_example :
  continues (example_frame [x5c; x2a]) (example_machine [VInt U32 2; VInt U32 4294967292]) 1 [VInt U32 2147483646]
    (step 0 Release (example_frame [x5c; x2a]) (example_machine [VInt U32 2; VInt U32 4294967292])).
Proof.
  refine (proj1 (proj2 (proj2 (C46_unsigned_partial 0 Release _ (example_machine [VInt U32 2; VInt U32 4294967292]) U32 4294967292 2 [] eq_refl _ _ _ _)))
    (example_code [x5c] [x2a]) _); cbn; lia.
Qed.

Print Assumptions C44_add_sub_mul.
Print Assumptions C44_neg.
Print Assumptions C44_and_or_xor.
Print Assumptions C44_not.
Print Assumptions C44_shl.
Print Assumptions C44_shr.
Print Assumptions C44_shl_release.
Print Assumptions C44_shr_release.
Print Assumptions C45_div_rem.
Print Assumptions C46_unsigned_comparison_refuted.
Print Assumptions C46_unsigned_division_refuted.
Print Assumptions C46_unsigned_partial.

(** Comparison of floating point numbers follows the order of the numbers they stand for. *)
From Coq Require Import NArith ZArith String List Bool Lia.
From Coq.Floats Require Import SpecFloat.
From Verif Require Import Base BaseFacts Value SpecExec.
Import ListNotations.
Open Scope N_scope.

(** ** Magnitudes *)

(** What [of_bits] makes of sign, exponent field and fraction. *)
Definition of_fields (mb eb : N) (emin : Z) (s : bool) (e m : N) : spec_float :=
  if e =? 2 ^ eb - 1 then (if m =? 0 then S754_infinity s else S754_nan)
  else if e =? 0 then match m with 0 => S754_zero s | N.pos q => S754_finite s q emin end
  else match m + 2 ^ mb with
       | 0 => S754_zero s
       | N.pos q => S754_finite s q (Z.of_N e - 1 + emin)
       end.
Definition mag (mb e m : N) : N := if e =? 0 then m else (2 ^ mb + m) * 2 ^ (e - 1).
Definition apply_sign (s : bool) (n : N) : Z := if s then (- Z.of_N n)%Z else Z.of_N n.

Lemma mag_exponent mb e e' m m' : m < 2 ^ mb -> e < e' -> mag mb e m < mag mb e' m'.
Proof.
  intros M L. unfold mag. destruct (N.eqb_spec e' 0); [lia|].
  assert (P : forall k, 0 < 2 ^ k) by (intro; apply N.neq_0_lt_0, N.pow_nonzero; lia).
  pose proof (P (e' - 1)). pose proof (P mb).
  destruct (N.eqb_spec e 0); [nia|].
  apply N.lt_le_trans with (2 ^ mb * 2 ^ (e' - 1)); [|nia].
  replace (e' - 1) with (e - 1 + 1 + (e' - e - 1)) by lia. rewrite !N.pow_add_r. change (2 ^ 1) with 2.
  pose proof (P (e - 1)). pose proof (P (e' - e - 1)). nia.
Qed.

Lemma mag_fraction mb e m m' : (mag mb e m ?= mag mb e m') = (m ?= m').
Proof.
  unfold mag. destruct (N.eqb_spec e 0); [reflexivity|].
  assert (0 < 2 ^ (e - 1)) by (apply N.neq_0_lt_0, N.pow_nonzero; lia).
  destruct (N.compare_spec m m'); [subst; apply N.compare_refl|apply N.compare_lt_iff; nia|apply N.compare_gt_iff; nia].
Qed.

Lemma mag_zero mb e m : mag mb e m = 0 <-> e = 0 /\ m = 0.
Proof.
  unfold mag. destruct (N.eqb_spec e 0); [intuition|].
  assert (0 < 2 ^ (e - 1)) by (apply N.neq_0_lt_0, N.pow_nonzero; lia).
  assert (0 < 2 ^ mb) by (apply N.neq_0_lt_0, N.pow_nonzero; lia). nia.
Qed.

(** The parts of a non-NaN number. *)
Inductive shape (mb eb : N) (emin : Z) (s : bool) (e m : N) : spec_float -> Prop :=
| sh_zero : e = 0 -> m = 0 -> shape mb eb emin s e m (S754_zero s)
| sh_sub q : e = 0 -> m = N.pos q -> shape mb eb emin s e m (S754_finite s q emin)
| sh_norm q : 0 < e -> e < 2 ^ eb - 1 -> m + 2 ^ mb = N.pos q ->
    shape mb eb emin s e m (S754_finite s q (Z.of_N e - 1 + emin))
| sh_inf : 0 < e -> e = 2 ^ eb - 1 -> m = 0 -> shape mb eb emin s e m (S754_infinity s).

Lemma shape_of mb eb emin s e m : 1 <= eb -> e < 2 ^ eb -> m < 2 ^ mb -> ~ (e = 2 ^ eb - 1 /\ m <> 0) ->
  shape mb eb emin s e m (of_fields mb eb emin s e m).
Proof.
  intros EB E M NN. unfold of_fields.
  assert (2 <= 2 ^ eb) by (change 2 with (2 ^ 1) at 1; apply N.pow_le_mono_r; lia).
  assert (P : 0 < 2 ^ mb) by (apply N.neq_0_lt_0, N.pow_nonzero; lia).
  destruct (N.eqb_spec e (2 ^ eb - 1)).
  - destruct (N.eqb_spec m 0); [apply sh_inf; lia|]. exfalso. auto.
  - destruct (N.eqb_spec e 0).
    + destruct m; [now apply sh_zero|now apply sh_sub].
    + destruct (m + 2 ^ mb) eqn:Q; [lia|]. apply sh_norm; [lia|lia|exact Q].
Qed.

Lemma Zcmp_N a b : (Z.of_N a ?= Z.of_N b)%Z = (a ?= b).
Proof. apply N2Z.inj_compare. Qed.
Lemma Zcmp_opp a b : (- Z.of_N a ?= - Z.of_N b)%Z = (b ?= a).
Proof. rewrite <- Zcmp_N. apply Z.compare_opp. Qed.

Lemma compare_shapes mb eb emin s e m s' e' m' x y : m < 2 ^ mb -> m' < 2 ^ mb ->
  shape mb eb emin s e m x -> shape mb eb emin s' e' m' y ->
  SFcompare x y = Some (apply_sign s (mag mb e m) ?= apply_sign s' (mag mb e' m'))%Z.
Proof.
  intros M M' X Y.
  assert (LT : e < e' -> mag mb e m < mag mb e' m') by (intro; now apply mag_exponent).
  assert (GT : e' < e -> mag mb e' m' < mag mb e m) by (intro; now apply mag_exponent).
  assert (EQ : e = e' -> (mag mb e m ?= mag mb e' m') = (m ?= m')) by (intros ->; apply mag_fraction).
  pose proof (mag_zero mb e m) as Z0. pose proof (mag_zero mb e' m') as Z0'.
  (* the comparison of magnitudes, from that of exponents and fractions *)
  assert (MC : (mag mb e m ?= mag mb e' m') = match e ?= e' with Eq => m ?= m' | c => c end).
  { destruct (N.compare_spec e e') as [K|K|K]; [auto| |].
    - apply N.compare_lt_iff. auto.
    - apply N.compare_gt_iff. auto. }
  assert (MC' : (mag mb e' m' ?= mag mb e m) = CompOpp (mag mb e m ?= mag mb e' m')) by apply N.compare_antisym.
  set (A := mag mb e m) in *. set (B := mag mb e' m') in *.
  assert (SG : forall c, (0 < A \/ 0 < B) -> (s = true /\ s' = false -> c = Lt) -> (s = false /\ s' = true -> c = Gt) ->
     (s = false /\ s' = false -> c = (A ?= B)) -> (s = true /\ s' = true -> c = (B ?= A)) ->
     Some c = Some (apply_sign s A ?= apply_sign s' B)%Z).
  { intros c P C1 C2 C3 C4. f_equal. unfold apply_sign. destruct s, s'.
    - rewrite Zcmp_opp. auto.
    - rewrite C1 by auto. symmetry. apply Z.compare_lt_iff. lia.
    - rewrite C2 by auto. symmetry. apply Z.compare_gt_iff. lia.
    - rewrite Zcmp_N. auto. }
  assert (PC : forall a b, Pos.compare_cont Eq a b = (N.pos a ?= N.pos b)) by reflexivity.
  destruct X as [X1 X2|q X1 X2|q X1 X2 X3|X0 X1 X2], Y as [Y1 Y2|r Y1 Y2|r Y1 Y2 Y3|Y0 Y1 Y2]; cbn [SFcompare].
  - assert (A = 0) by (apply Z0; auto). assert (B = 0) by (apply Z0'; auto). rewrite H, H0. now destruct s, s'.
  - assert (A = 0) by (apply Z0; auto). assert (B <> 0) by (rewrite Z0'; lia).
    f_equal. unfold apply_sign. rewrite H. destruct s, s'; symmetry; (apply Z.compare_lt_iff + apply Z.compare_gt_iff); lia.
  - assert (A = 0) by (apply Z0; auto). assert (B <> 0) by (rewrite Z0'; lia).
    f_equal. unfold apply_sign. rewrite H. destruct s, s'; symmetry; (apply Z.compare_lt_iff + apply Z.compare_gt_iff); lia.
  - assert (A = 0) by (apply Z0; auto). assert (B <> 0) by (rewrite Z0'; lia).
    f_equal. unfold apply_sign. rewrite H. destruct s, s'; symmetry; (apply Z.compare_lt_iff + apply Z.compare_gt_iff); lia.
  - assert (B = 0) by (apply Z0'; auto). assert (A <> 0) by (rewrite Z0; lia).
    f_equal. unfold apply_sign. rewrite H. destruct s, s'; symmetry; (apply Z.compare_lt_iff + apply Z.compare_gt_iff); lia.
  - assert (A <> 0) by (rewrite Z0; lia). rewrite Z.compare_refl. subst e e'. rewrite N.compare_refl in MC.
    assert (MC2 : (A ?= B) = (N.pos q ?= N.pos r)) by (rewrite MC; now subst).
    apply SG; [lia|intros [-> ->]; reflexivity|intros [-> ->]; reflexivity|intros [-> ->]; now rewrite MC2, PC
              |intros [-> ->]; now rewrite MC', MC2, PC].
  - assert (A <> 0) by (rewrite Z0; lia).
    assert (e < e') by lia. assert (AB : (A ?= B) = Lt) by (apply N.compare_lt_iff; auto).
    destruct (Z.eq_dec (Z.of_N e' - 1) 0).
    + (* equal exponents, the fraction decides *)
      assert (MC2 : (N.pos q ?= N.pos r) = Lt) by (apply N.compare_lt_iff; lia).
      replace (Z.of_N e' - 1 + emin)%Z with emin by lia. rewrite Z.compare_refl.
      apply SG; [lia|intros [-> ->]; reflexivity|intros [-> ->]; reflexivity|intros [-> ->]; now rewrite AB, PC, MC2
              |intros [-> ->]; now rewrite MC', AB, PC, MC2].
    + assert (EC : (emin ?= Z.of_N e' - 1 + emin)%Z = Lt) by (apply Z.compare_lt_iff; lia). rewrite EC.
      apply SG; [lia|intros [-> ->]; reflexivity|intros [-> ->]; reflexivity|intros [-> ->]; now rewrite AB
              |intros [-> ->]; now rewrite MC', AB].
  - assert (e < e') by lia. assert (AB : A < B) by auto.
    f_equal. unfold apply_sign. destruct s, s'; symmetry; (apply Z.compare_lt_iff + apply Z.compare_gt_iff); lia.
  - assert (B = 0) by (apply Z0'; auto). assert (A <> 0) by (rewrite Z0; lia).
    f_equal. unfold apply_sign. rewrite H. destruct s, s'; symmetry; (apply Z.compare_lt_iff + apply Z.compare_gt_iff); lia.
  - assert (B <> 0) by (rewrite Z0'; lia).
    assert (e' < e) by lia. assert (AB : (A ?= B) = Gt) by (apply N.compare_gt_iff; auto).
    destruct (Z.eq_dec (Z.of_N e - 1) 0).
    + assert (MC2 : (N.pos q ?= N.pos r) = Gt) by (apply N.compare_gt_iff; lia).
      replace (Z.of_N e - 1 + emin)%Z with emin by lia. rewrite Z.compare_refl.
      apply SG; [lia|intros [-> ->]; reflexivity|intros [-> ->]; reflexivity|intros [-> ->]; now rewrite AB, PC, MC2
              |intros [-> ->]; now rewrite MC', AB, PC, MC2].
    + assert (EC : (Z.of_N e - 1 + emin ?= emin)%Z = Gt) by (apply Z.compare_gt_iff; lia). rewrite EC.
      apply SG; [lia|intros [-> ->]; reflexivity|intros [-> ->]; reflexivity|intros [-> ->]; now rewrite AB
              |intros [-> ->]; now rewrite MC', AB].
  - assert (A <> 0) by (rewrite Z0; lia).
    assert (EC : (Z.of_N e - 1 + emin ?= Z.of_N e' - 1 + emin)%Z = (e ?= e')).
    { destruct (N.compare_spec e e'); [subst; apply Z.compare_refl|apply Z.compare_lt_iff; lia|apply Z.compare_gt_iff; lia]. }
    rewrite EC.
    assert (MC2 : (N.pos q ?= N.pos r) = (m ?= m')).
    { rewrite <- X3, <- Y3. destruct (N.compare_spec m m'); [subst; apply N.compare_refl|apply N.compare_lt_iff; lia|apply N.compare_gt_iff; lia]. }
    apply SG; [lia|intros [-> ->]; reflexivity|intros [-> ->]; reflexivity|intros [-> ->]; rewrite MC, PC, MC2; now destruct (e ?= e')
              |intros [-> ->]; rewrite MC', MC, PC, MC2; now destruct (e ?= e')].
  - assert (e < e') by lia. assert (AB : A < B) by auto.
    f_equal. unfold apply_sign. destruct s, s'; symmetry; (apply Z.compare_lt_iff + apply Z.compare_gt_iff); lia.
  - assert (B = 0) by (apply Z0'; auto). assert (A <> 0) by (rewrite Z0; lia).
    f_equal. unfold apply_sign. rewrite H. destruct s, s'; symmetry; (apply Z.compare_lt_iff + apply Z.compare_gt_iff); lia.
  - assert (e' < e) by lia. assert (AB : B < A) by auto.
    f_equal. unfold apply_sign. destruct s, s'; symmetry; (apply Z.compare_lt_iff + apply Z.compare_gt_iff); lia.
  - assert (e' < e) by lia. assert (AB : B < A) by auto.
    f_equal. unfold apply_sign. destruct s, s'; symmetry; (apply Z.compare_lt_iff + apply Z.compare_gt_iff); lia.
  - assert (A <> 0) by (rewrite Z0; lia). assert (AB : (A ?= B) = Eq).
    { rewrite MC. replace e' with e by congruence. rewrite N.compare_refl, X2, Y2. reflexivity. }
    apply N.compare_eq_iff in AB.
    f_equal. unfold apply_sign. rewrite AB. destruct s, s'; symmetry;
      (apply Z.compare_eq_iff + apply Z.compare_lt_iff + apply Z.compare_gt_iff); lia.
Qed.

(** ** Formats *)

Lemma of_bits_fields f b mb eb : fmbits f = mb -> f_ebits f = eb ->
  of_bits f b = of_fields mb eb (femin f) (negb (N.even (b / 2 ^ (mb + eb)))) ((b / 2 ^ mb) mod 2 ^ eb) (b mod 2 ^ mb).
Proof.
  intros <- <-. unfold of_bits, of_fields. rewrite N.testbit_odd, N.shiftr_div_pow2, <- N.negb_even. reflexivity.
Qed.

Lemma measure_fields mb eb b :
  measure mb eb b = apply_sign (negb (N.even (b / 2 ^ (mb + eb)))) (mag mb ((b / 2 ^ mb) mod 2 ^ eb) (b mod 2 ^ mb)).
Proof. unfold measure, apply_sign, mag. now destruct (N.even _). Qed.

Lemma cmp_measure f mb eb a b : fmbits f = mb -> f_ebits f = eb -> 1 <= eb ->
  ~ is_nan mb eb a -> ~ is_nan mb eb b -> float_cmp f a b = Some (measure mb eb a ?= measure mb eb b)%Z.
Proof.
  intros MB EB P A B. unfold float_cmp. rewrite !(of_bits_fields f _ mb eb MB EB), !measure_fields.
  assert (L : forall k x, x mod 2 ^ k < 2 ^ k) by (intros; apply N.mod_lt, N.pow_nonzero; lia).
  eapply compare_shapes with (eb := eb); eauto; apply shape_of; auto.
Qed.

Lemma nan_bits f mb eb a : fmbits f = mb -> f_ebits f = eb -> is_nan mb eb a -> of_bits f a = S754_nan.
Proof.
  intros MB EB [E M]. rewrite (of_bits_fields f _ mb eb MB EB). unfold of_fields.
  rewrite E, N.eqb_refl. apply N.eqb_neq in M. now rewrite M.
Qed.

Lemma cmp_nan f mb eb a b : fmbits f = mb -> f_ebits f = eb -> is_nan mb eb a \/ is_nan mb eb b ->
  float_cmp f a b = None.
Proof.
  intros MB EB [H|H]; unfold float_cmp; rewrite (nan_bits f mb eb _ MB EB H); [reflexivity|].
  now destruct (of_bits f a).
Qed.

Lemma nan_dec mb eb b : {is_nan mb eb b} + {~ is_nan mb eb b}.
Proof.
  unfold is_nan. destruct (N.eq_dec ((b / 2 ^ mb) mod 2 ^ eb) (2 ^ eb - 1)), (N.eq_dec (b mod 2 ^ mb) 0);
    [right; now intros [_ K]|left; now split|right; now intros [K _]|right; now intros [K _]].
Qed.

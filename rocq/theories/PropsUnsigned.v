(** The unsigned instructions, for all operands: when their answer is right. C46. *)
From Coq Require Import NArith ZArith String List Bool Lia Znumtheory.
From Coq.Strings Require Import Byte.
From Verif Require Import Base BaseFacts Metadata Runtime Value Opcodes Gc Interp SpecExec InterpFacts PropsValue.
Import ListNotations.
Open Scope Z_scope.

(** ** Division *)

(** The operands for which the signed quotient has the bits of the unsigned one. *)
Definition quotient_right (a b : Z) : Prop :=
  (0 <= a /\ 0 < b) \/ b = 1 \/ (b < 0 /\ 0 <= a < - b) \/ (b < 0 /\ a = b).
(** The operands for which the signed remainder has the bits of the unsigned one; [w] is the number of bits. *)
Definition remainder_right (w a b : Z) : Prop :=
  (0 <= a /\ 0 < b) \/ (a < 0 < b /\ (b | a) /\ (b | 2 ^ w)) \/ (b < 0 /\ 0 <= a < - b) \/ (b < 0 /\ a = b).

Definition unsig (W x : Z) : Z := if x <? 0 then x + W else x.

Lemma quot_neg_l a b : a < 0 -> 0 < b -> Z.quot a b = - ((- a) / b) /\ Z.rem a b = - ((- a) mod b).
Proof.
  intros. replace a with (- (- a)) at 1 3 by lia. rewrite Z.quot_opp_l, Z.rem_opp_l by lia.
  now rewrite Z.quot_div_nonneg, Z.rem_mod_nonneg by lia.
Qed.
Lemma quot_neg_r a b : 0 <= a -> b < 0 -> Z.quot a b = - (a / (- b)) /\ Z.rem a b = a mod (- b).
Proof.
  intros. replace b with (- (- b)) at 1 3 by lia. rewrite Z.quot_opp_r, Z.rem_opp_r by lia.
  now rewrite Z.quot_div_nonneg, Z.rem_mod_nonneg by lia.
Qed.
Lemma quot_neg_both a b : a < 0 -> b < 0 -> Z.quot a b = (- a) / (- b) /\ Z.rem a b = - ((- a) mod (- b)).
Proof.
  intros. replace a with (- (- a)) at 1 3 by lia. replace b with (- (- b)) at 1 3 by lia.
  rewrite Z.quot_opp_opp, Z.rem_opp_l, Z.rem_opp_r by lia.
  now rewrite Z.quot_div_nonneg, Z.rem_mod_nonneg by lia.
Qed.

Section Signed.
  Variables (W H a b : Z).
  Hypotheses (HW : W = 2 * H) (H1 : 2 <= H) (Ha : - H <= a < H) (Hb : - H <= b < H) (NZ : b <> 0).

  Lemma quotient_iff : unsig W (Z.quot a b) = unsig W a / unsig W b /\ - H <= Z.quot a b < H <-> quotient_right a b.
  Proof.
    unfold quotient_right. destruct (Z_lt_le_dec a 0) as [A|A], (Z_lt_le_dec b 0) as [B|B].
    - destruct (quot_neg_both a b A B) as [-> _]. unfold unsig at 2 3. destruct (Z.ltb_spec a 0), (Z.ltb_spec b 0); try lia.
      destruct (Z.lt_trichotomy a b) as [L|[L|L]].
      + assert (1 <= - a / - b) by (apply Z.div_le_lower_bound; lia).
        rewrite (Z.div_small (a + W)) by lia. unfold unsig. destruct (Z.ltb_spec (- a / - b) 0); lia.
      + subst b. rewrite !Z.div_same by lia. unfold unsig. cbn. split; [intros _|intros _; split; [reflexivity|]]; [lia|].
        lia.
      + rewrite (Z.div_small (- a)) by lia. assert (1 <= (a + W) / (b + W)) by (apply Z.div_le_lower_bound; lia). unfold unsig. cbn. lia.
    - destruct (quot_neg_l a b A ltac:(lia)) as [-> _]. unfold unsig at 2 3. destruct (Z.ltb_spec a 0), (Z.ltb_spec b 0); try lia.
      destruct (Z.eq_dec b 1) as [->|N1].
      + rewrite !Z.div_1_r. unfold unsig. destruct (Z.ltb_spec (- - a) 0); lia.
      + assert ((a + W) / b <= H) by (apply Z.div_le_upper_bound; nia).
        assert (1 <= (a + W) / b) by (apply Z.div_le_lower_bound; lia).
        assert (0 <= - a / b) by (apply Z.div_pos; lia). pose proof (Z.div_lt (- a) b ltac:(lia) ltac:(lia)).
        unfold unsig. destruct (Z.ltb_spec (- (- a / b)) 0); lia.
    - destruct (quot_neg_r a b A B) as [-> _]. unfold unsig at 2 3. destruct (Z.ltb_spec a 0), (Z.ltb_spec b 0); try lia.
      rewrite (Z.div_small a (b + W)) by lia. destruct (Z_lt_le_dec a (- b)).
      + rewrite Z.div_small by lia. unfold unsig. cbn. lia.
      + assert (1 <= a / - b) by (apply Z.div_le_lower_bound; lia). assert (a / - b <= a) by (apply Z.div_le_upper_bound; nia).
        unfold unsig. destruct (Z.ltb_spec (- (a / - b)) 0); lia.
    - rewrite Z.quot_div_nonneg by lia. assert (0 <= a / b) by (apply Z.div_pos; lia). assert (a / b <= a) by (apply Z.div_le_upper_bound; nia).
      unfold unsig. destruct (Z.ltb_spec a 0), (Z.ltb_spec b 0), (Z.ltb_spec (a / b) 0); lia.
  Qed.

  Lemma remainder_iff w : W = 2 ^ w ->
    unsig W (Z.rem a b) = unsig W a mod unsig W b /\ - H <= Z.quot a b < H <-> remainder_right w a b.
  Proof.
    intro Ew. unfold remainder_right. rewrite <- Ew. destruct (Z_lt_le_dec a 0) as [A|A], (Z_lt_le_dec b 0) as [B|B].
    - destruct (quot_neg_both a b A B) as [-> ->]. unfold unsig at 2 3. destruct (Z.ltb_spec a 0), (Z.ltb_spec b 0); try lia.
      destruct (Z.lt_trichotomy a b) as [L|[L|L]].
      + rewrite (Z.mod_small (a + W)) by lia. pose proof (Z.mod_pos_bound (- a) (- b) ltac:(lia)).
        unfold unsig. destruct (Z.ltb_spec (- (- a mod - b)) 0); lia.
      + subst b. rewrite !Z.mod_same by lia. rewrite Z.div_same by lia. unfold unsig. cbn.
        split; [lia|]. intros _. split; [reflexivity|]. lia.
      + rewrite (Z.mod_small (- a)) by lia. rewrite Z.opp_involutive. unfold unsig. destruct (Z.ltb_spec a 0); [|lia].
        pose proof (Z.mod_pos_bound (a + W) (b + W) ltac:(lia)). replace (a + W) with (a - b + 1 * (b + W)) at 2 by lia.
        rewrite Z.mod_add by lia. rewrite Z.mod_small by lia. lia.
    - destruct (quot_neg_l a b A ltac:(lia)) as [-> ->]. unfold unsig at 2 3. destruct (Z.ltb_spec a 0), (Z.ltb_spec b 0); try lia.
      pose proof (Z.mod_pos_bound (- a) b ltac:(lia)). pose proof (Z.mod_pos_bound (a + W) b ltac:(lia)).
      assert (0 <= - a / b <= H) by (split; [apply Z.div_pos; lia|apply Z.div_le_upper_bound; nia]).
      unfold unsig. destruct (Z.ltb_spec (- (- a mod b)) 0).
      + split; [lia|]. intros [?|[(_ & D & _)|?]]; [lia| |lia]. exfalso.
        assert (- a mod b = 0) by (apply Z.mod_divide; [lia|]; now apply Z.divide_opp_r). lia.
      + assert (E : - a mod b = 0) by lia. rewrite E. cbn [Z.opp].
        assert (D : (b | a)) by (apply Z.divide_opp_r, Z.mod_divide; [lia|exact E]).
        split.
        * intros [E2 _]. right. left. split; [lia|]. split; [exact D|].
          assert (D2 : (b | a + W)) by (apply Z.mod_divide; [lia|now symmetry]).
          replace W with (a + W - a) by lia. now apply Z.divide_sub_r.
        * intros [?|[(_ & _ & D2)|?]]; [lia| |lia]. split; [|lia]. symmetry. apply Z.mod_divide; [lia|]. now apply Z.divide_add_r.
    - destruct (quot_neg_r a b A B) as [-> ->]. unfold unsig at 2 3. destruct (Z.ltb_spec a 0), (Z.ltb_spec b 0); try lia.
      rewrite (Z.mod_small a (b + W)) by lia. pose proof (Z.mod_pos_bound a (- b) ltac:(lia)).
      assert (0 <= a / - b <= a) by (split; [apply Z.div_pos; lia|apply Z.div_le_upper_bound; nia]).
      unfold unsig. destruct (Z.ltb_spec (a mod - b) 0); [lia|]. destruct (Z_lt_le_dec a (- b)); [rewrite Z.mod_small by lia; lia|lia].
    - rewrite Z.rem_mod_nonneg, Z.quot_div_nonneg by lia. pose proof (Z.mod_pos_bound a b ltac:(lia)).
      assert (0 <= a / b <= a) by (split; [apply Z.div_pos; lia|apply Z.div_le_upper_bound; nia]).
      unfold unsig. destruct (Z.ltb_spec a 0), (Z.ltb_spec b 0), (Z.ltb_spec (a mod b) 0); lia.
  Qed.
End Signed.

(** Div.un and rem.un. *)
Lemma unsig_as t x : as_unsigned t x = unsig (2 ^ width t) x.
Proof. reflexivity. Qed.

Lemma fits_cases t a : fits t a -> (0 <= a /\ ~ signed t /\ forall x, 0 <= x <= a -> fits t x) \/
  (exists H, 2 ^ width t = 2 * H /\ 2 <= H /\ forall x, fits t x <-> - H <= x < H).
Proof.
  intro F. destruct t; [right; exists 128|left|right; exists 32768|left|right; exists 2147483648|left|right; exists 9223372036854775808|left];
    cbn in *; (split; [lia|]); (split; [try lia; unfold signed; intuition discriminate|]); intros; lia.
Qed.

Lemma step_div_un fuel p fr s t a b l : code_here fr [x5c] -> x_operands s = VInt t b :: VInt t a :: l -> b <> 0 ->
  (fits t (Z.quot a b) /\ continues fr s 1 (VInt t (Z.quot a b) :: l) (step fuel p fr s)) \/ (~ fits t (Z.quot a b) /\ panics (step fuel p fr s)).
Proof.
  intros C E NZ. apply Z.eqb_neq in NZ. destruct (in_ity t (Z.quot a b)) eqn:F.
  - left. split; [now apply in_ity_fits|]. step_at C. rewrite (op2_run _ _ _ _ _ _ E). unfold v_div, binary, int_div.
    rewrite ity_eqb_refl, NZ, F. now apply finish.
  - right. split; [now apply in_ity_out|]. step_at C. rewrite (op2_run _ _ _ _ _ _ E). unfold v_div, binary, int_div.
    rewrite ity_eqb_refl, NZ, F. now eexists.
Qed.
Lemma step_rem_un fuel p fr s t a b l : code_here fr [x5e] -> x_operands s = VInt t b :: VInt t a :: l -> b <> 0 ->
  (fits t (Z.quot a b) /\ continues fr s 1 (VInt t (Z.rem a b) :: l) (step fuel p fr s)) \/ (~ fits t (Z.quot a b) /\ panics (step fuel p fr s)).
Proof.
  intros C E NZ. apply Z.eqb_neq in NZ. destruct (in_ity t (Z.quot a b)) eqn:F.
  - left. split; [now apply in_ity_fits|]. step_at C. rewrite (op2_run _ _ _ _ _ _ E). unfold v_rem, binary, int_rem.
    rewrite ity_eqb_refl, NZ, F. now apply finish.
  - right. split; [now apply in_ity_out|]. step_at C. rewrite (op2_run _ _ _ _ _ _ E). unfold v_rem, binary, int_rem.
    rewrite ity_eqb_refl, NZ, F. now eexists.
Qed.
Lemma continues_one fr s n t x y l r : continues fr s n (VInt t x :: l) r -> continues fr s n (VInt t y :: l) r -> x = y.
Proof.
  intros (f1 & s1 & E1 & _ & O1) (f2 & s2 & E2 & _ & O2). rewrite E1 in E2. injection E2 as <- <-.
  destruct O1 as (_ & _ & _ & _ & _ & O1), O2 as (_ & _ & _ & _ & _ & O2). rewrite O1 in O2. now injection O2.
Qed.
Lemma continues_no_panic fr s n l r : continues fr s n l r -> ~ panics r.
Proof. intros (? & ? & -> & _) [? [=]]. Qed.

Theorem C46_division_exactly : forall fuel p fr s t a b l,
  code_here fr [x5c] -> x_operands s = VInt t b :: VInt t a :: l -> fits t a -> fits t b -> b <> 0 ->
  (exists r, continues fr s 1 (VInt t r :: l) (step fuel p fr s) /\ as_unsigned t r = as_unsigned t a / as_unsigned t b) <-> quotient_right a b.
Proof.
  intros fuel p fr s t a b l C E A B NZ. pose proof (step_div_un fuel p fr s t a b l C E NZ) as D.
  assert (X : (as_unsigned t (Z.quot a b) = as_unsigned t a / as_unsigned t b /\ fits t (Z.quot a b)) <-> quotient_right a b).
  { destruct (fits_cases t a A) as [(P & U & K)|(H & HW & H2 & K)].
    - assert (0 <= b) by (destruct t; cbn in *; try lia; destruct U; unfold signed; auto).
      rewrite Z.quot_div_nonneg by lia. assert (0 <= a / b) by (apply Z.div_pos; lia). assert (a / b <= a) by (apply Z.div_le_upper_bound; nia).
      specialize (K (a / b) ltac:(lia)). unfold quotient_right, as_unsigned. destruct (Z.ltb_spec a 0), (Z.ltb_spec b 0), (Z.ltb_spec (a / b) 0); intuition lia.
    - rewrite !unsig_as, K. apply quotient_iff; [exact HW|exact H2|now apply K|now apply K|exact NZ]. }
  rewrite <- X. split.
  - intros (r & R & U). destruct D as [[F D]|[_ D]]; [|destruct (continues_no_panic _ _ _ _ _ R D)].
    rewrite <- (continues_one _ _ _ _ _ _ _ _ R D). rewrite <- (continues_one _ _ _ _ _ _ _ _ R D) in F. now split.
  - intros [U F]. destruct D as [[_ D]|[F' _]]; [|easy]. eauto.
Qed.

Theorem C46_remainder_exactly : forall fuel p fr s t a b l,
  code_here fr [x5e] -> x_operands s = VInt t b :: VInt t a :: l -> fits t a -> fits t b -> b <> 0 ->
  (exists r, continues fr s 1 (VInt t r :: l) (step fuel p fr s) /\ as_unsigned t r = as_unsigned t a mod as_unsigned t b) <->
  remainder_right (width t) a b.
Proof.
  intros fuel p fr s t a b l C E A B NZ. pose proof (step_rem_un fuel p fr s t a b l C E NZ) as D.
  assert (X : (as_unsigned t (Z.rem a b) = as_unsigned t a mod as_unsigned t b /\ fits t (Z.quot a b)) <-> remainder_right (width t) a b).
  { destruct (fits_cases t a A) as [(P & U & K)|(H & HW & H2 & K)].
    - assert (0 <= b) by (destruct t; cbn in *; try lia; destruct U; unfold signed; auto).
      rewrite Z.quot_div_nonneg, Z.rem_mod_nonneg by lia. assert (0 <= a / b) by (apply Z.div_pos; lia). assert (a / b <= a) by (apply Z.div_le_upper_bound; nia).
      specialize (K (a / b) ltac:(lia)). pose proof (Z.mod_pos_bound a b ltac:(lia)).
      unfold remainder_right, as_unsigned. destruct (Z.ltb_spec a 0), (Z.ltb_spec b 0), (Z.ltb_spec (a mod b) 0); intuition lia.
    - rewrite !unsig_as, K. apply remainder_iff; [exact HW|exact H2|now apply K|now apply K|exact NZ|reflexivity]. }
  rewrite <- X. split.
  - intros (r & R & U). destruct D as [[F D]|[_ D]]; [|destruct (continues_no_panic _ _ _ _ _ R D)].
    rewrite <- (continues_one _ _ _ _ _ _ _ _ R D). now split.
  - intros [U F]. destruct D as [[_ D]|[F' _]]; [|easy]. eauto.
Qed.

(** ** Comparison *)

(** Cgt.un and clt.un always answer, and the answer is right exactly if the operands have the same sign. *)
Theorem C46_comparison_exactly : forall fuel p fr s i t a b l,
  i = x03 \/ i = x05 -> code_here fr [xfe; i] -> x_operands s = VInt t b :: VInt t a :: l -> fits t a -> fits t b ->
  exists r, continues fr s 2 (VInt I32 r :: l) (step fuel p fr s) /\ (r = 0 \/ r = 1) /\
    ((r = 1 <-> (if Byte.eqb i x03 then as_unsigned t a > as_unsigned t b else as_unsigned t a < as_unsigned t b)) <->
     (a < 0 <-> b < 0) \/ a = b).
Proof.
  intros fuel p fr s i t a b l I C E A B.
  assert (W : forall x, fits t x -> 0 <= as_unsigned t x < 2 ^ width t /\ (x < 0 -> 2 ^ (width t - 1) <= as_unsigned t x) /\ (0 <= x -> signed t -> as_unsigned t x < 2 ^ (width t - 1)) /\ (x < 0 -> signed t)).
  { intros x X. unfold as_unsigned, signed. destruct t; cbn in *; destruct (Z.ltb_spec x 0); repeat split; intros; try lia; auto; intuition discriminate. }
  pose proof (W a A) as WA. pose proof (W b B) as WB.
  assert (O : (a < 0 <-> b < 0) -> (as_unsigned t a > as_unsigned t b <-> a > b) /\ (as_unsigned t a < as_unsigned t b <-> a < b)).
  { intro Q. unfold as_unsigned. destruct (Z.ltb_spec a 0), (Z.ltb_spec b 0); lia. }
  assert (N : a < 0 <= b -> as_unsigned t a > as_unsigned t b) by (intros [? ?]; destruct WA as (_ & X & _ & Y), WB as (_ & _ & Z & _); specialize (Y ltac:(lia)); specialize (X ltac:(lia)); specialize (Z ltac:(lia) Y); lia).
  assert (N' : b < 0 <= a -> as_unsigned t a < as_unsigned t b) by (intros [? ?]; destruct WB as (_ & X & _ & Y), WA as (_ & _ & Z & _); specialize (Y ltac:(lia)); specialize (X ltac:(lia)); specialize (Z ltac:(lia) Y); lia).
  clear W WA WB.
  destruct I as [-> | ->].
  - exists (if a >? b then 1 else 0). split.
    { step_at2 C. unfold compare. rewrite (pop2_run s _ _ _ E). unfold v_gt, v_cmp, bind at 1 2. rewrite ity_eqb_refl. unfold ret, Z.gtb.
      destruct (a ?= b); now apply finish. }
    split; [destruct (a >? b); auto|]. cbn [Byte.eqb]. change (Byte.eqb x03 x03) with true. cbv iota.
    destruct (Z.gtb_spec a b); destruct (Z_lt_le_dec a 0), (Z_lt_le_dec b 0); try (destruct (O ltac:(lia)) as [O1 O2]); intuition lia.
  - exists (if a <? b then 1 else 0). split.
    { step_at2 C. unfold compare. rewrite (pop2_run s _ _ _ E). unfold v_lt, v_cmp, bind at 1 2. rewrite ity_eqb_refl. unfold ret, Z.ltb.
      destruct (a ?= b); now apply finish. }
    split; [destruct (a <? b); auto|]. change (Byte.eqb x05 x03) with false. cbv iota.
    destruct (Z.ltb_spec a b); destruct (Z_lt_le_dec a 0), (Z_lt_le_dec b 0); try (destruct (O ltac:(lia)) as [O1 O2]); intuition lia.
Qed.

(** ** Examples *)

(** Minus four divided by two is wrong, minus four divided by minus four right, and so is three divided by minus four. *)
Example C46_division_ex :
  (~ quotient_right (-4) 2 /\ as_unsigned I32 (-4) / as_unsigned I32 2 = 2147483646) /\ quotient_right (-4) (-4) /\ quotient_right 3 (-4) /\
  exists r, continues (example_frame [x5c; x2a]) (example_machine [VInt I32 (-4); VInt I32 3]) 1 [VInt I32 r]
    (step 0 Release (example_frame [x5c; x2a]) (example_machine [VInt I32 (-4); VInt I32 3])) /\ as_unsigned I32 r = as_unsigned I32 3 / as_unsigned I32 (-4).
Proof.
  split; [split; [unfold quotient_right; lia|reflexivity]|]. split; [unfold quotient_right; lia|]. split; [unfold quotient_right; lia|].
  apply (C46_division_exactly 0 Release _ (example_machine [VInt I32 (-4); VInt I32 3]) I32 3 (-4) [] (example_code [x5c] [x2a]) eq_refl);
    [cbn; lia|cbn; lia|lia|unfold quotient_right; lia].
Qed.
(** Minus eight modulo four is right, minus nine modulo three is not although both are zero or positive. *)
Example C46_remainder_ex : remainder_right 32 (-8) 4 /\ ~ remainder_right 32 (-9) 3 /\
  exists r, continues (example_frame [x5e; x2a]) (example_machine [VInt I32 4; VInt I32 (-8)]) 1 [VInt I32 r]
    (step 0 Debug (example_frame [x5e; x2a]) (example_machine [VInt I32 4; VInt I32 (-8)])) /\ as_unsigned I32 r = as_unsigned I32 (-8) mod as_unsigned I32 4.
Proof.
  assert (R : remainder_right 32 (-8) 4).
  { right. left. split; [lia|]. split; [exists (-2); lia|exists (2 ^ 30); reflexivity]. }
  split; [exact R|]. split.
  { intros [?|[(_ & _ & [k D])|?]]; [lia| |lia]. assert (X : 2 ^ 32 mod 3 = 1) by reflexivity. rewrite D, Z.mod_mul in X; lia. }
  apply (C46_remainder_exactly 0 Debug _ (example_machine [VInt I32 4; VInt I32 (-8)]) I32 (-8) 4 [] (example_code [x5e] [x2a]) eq_refl); [cbn; lia|cbn; lia|lia|exact R].
Qed.
Example C46_comparison_ex : exists r,
  continues (example_frame [xfe; x05; x2a]) (example_machine [VInt I32 (-1); VInt I32 (-2)]) 2 [VInt I32 r]
    (step 0 Debug (example_frame [xfe; x05; x2a]) (example_machine [VInt I32 (-1); VInt I32 (-2)])) /\ (r = 1 <-> as_unsigned I32 (-2) < as_unsigned I32 (-1)).
Proof.
  destruct (C46_comparison_exactly 0 Debug _ (example_machine [VInt I32 (-1); VInt I32 (-2)]) x05 I32 (-2) (-1) [] (or_intror eq_refl) (example_code [xfe; x05] [x2a]) eq_refl ltac:(cbn; lia) ltac:(cbn; lia))
    as (r & C & _ & R). exists r. split; [exact C|]. apply R. left. lia.
Qed.

Print Assumptions C46_division_exactly.
Print Assumptions C46_remainder_exactly.
Print Assumptions C46_comparison_exactly.

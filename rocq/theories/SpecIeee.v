(** Floating point arithmetic (IEEE 754, clauses 4.3.1, 5.4.1, 6.1, 6.2 and 6.3), for the statement of
    properties.  Nothing here comes from the model. *)
From Coq Require Import NArith ZArith Bool.
From Verif Require Import SpecExec.
Open Scope N_scope.

Section Format.
  (** The number of bits of the fraction and of the exponent. *)
  Variables mb eb : N.

  Definition in_format (b : N) : Prop := b < 2 ^ (mb + eb + 1).
  Definition negative (b : N) : bool := N.odd (b / 2 ^ (mb + eb)).
  Definition is_finite (b : N) : Prop := in_format b /\ (b / 2 ^ mb) mod 2 ^ eb <> 2 ^ eb - 1.
  Definition zero (neg : bool) : N := if neg then 2 ^ (mb + eb) else 0.
  Definition infinity (neg : bool) : N := zero neg + (2 ^ eb - 1) * 2 ^ mb.
  Definition not_a_number (b : N) : Prop := in_format b /\ is_nan mb eb b.

  (** Numbers are counted in units of the smallest positive number of the format, [2 ^ - unit_exponent]. *)
  Definition unit_exponent : N := 2 ^ (eb - 1) - 2 + mb.

  (** No number of the format is nearer to [n / d] units than [r], and one that is as near is equal or
      [r] is the one with the even fraction. *)
  Definition nearest (n d : Z) (r : N) : Prop :=
    is_finite r /\
    forall c, is_finite c ->
      (Z.abs (measure mb eb r * d - n) <= Z.abs (measure mb eb c * d - n))%Z /\
      ((Z.abs (measure mb eb c * d - n) = Z.abs (measure mb eb r * d - n))%Z ->
       measure mb eb c = measure mb eb r \/ N.even r = true).

  (** Half way between the largest finite number and the next power of two. *)
  Definition limit : Z := ((2 ^ Z.of_N (mb + 2) - 1) * 2 ^ Z.of_N (2 ^ eb - 4))%Z.

  (** The result of rounding [n / d] units to nearest, ties to even; [neg] is the sign of an exact zero. *)
  Definition rounds (n d : Z) (neg : bool) (r : N) : Prop :=
    ((Z.abs n < d * limit)%Z -> nearest n d r) /\
    ((d * limit <= Z.abs n)%Z -> r = infinity (n <? 0)%Z) /\
    negative r = (if (n =? 0)%Z then neg else (n <? 0)%Z).

  Inductive operation := Add | Sub | Mul | Div | Rem.

  Inductive arithmetic : operation -> N -> N -> N -> Prop :=
  | nan_operand o a b r : is_nan mb eb a \/ is_nan mb eb b -> not_a_number r -> arithmetic o a b r

  | add_finite a b r : is_finite a -> is_finite b ->
      rounds (measure mb eb a + measure mb eb b) 1 (negative a && negative b) r -> arithmetic Add a b r
  | add_infinite_l s b : is_finite b -> arithmetic Add (infinity s) b (infinity s)
  | add_infinite_r a s : is_finite a -> arithmetic Add a (infinity s) (infinity s)
  | add_infinities s : arithmetic Add (infinity s) (infinity s) (infinity s)
  | add_opposite s r : not_a_number r -> arithmetic Add (infinity s) (infinity (negb s)) r

  | sub_finite a b r : is_finite a -> is_finite b ->
      rounds (measure mb eb a - measure mb eb b) 1 (negative a && negb (negative b)) r -> arithmetic Sub a b r
  | sub_infinite_l s b : is_finite b -> arithmetic Sub (infinity s) b (infinity s)
  | sub_infinite_r a s : is_finite a -> arithmetic Sub a (infinity s) (infinity (negb s))
  | sub_infinities s : arithmetic Sub (infinity s) (infinity (negb s)) (infinity s)
  | sub_equal s r : not_a_number r -> arithmetic Sub (infinity s) (infinity s) r

  | mul_finite a b r : is_finite a -> is_finite b ->
      rounds (measure mb eb a * measure mb eb b) (2 ^ Z.of_N unit_exponent) (xorb (negative a) (negative b)) r -> arithmetic Mul a b r
  | mul_infinite_l s b : is_finite b -> measure mb eb b <> 0%Z -> arithmetic Mul (infinity s) b (infinity (xorb s (negative b)))
  | mul_infinite_r a s : is_finite a -> measure mb eb a <> 0%Z -> arithmetic Mul a (infinity s) (infinity (xorb (negative a) s))
  | mul_infinities s t : arithmetic Mul (infinity s) (infinity t) (infinity (xorb s t))
  | mul_zero_l a s r : is_finite a -> measure mb eb a = 0%Z -> not_a_number r -> arithmetic Mul a (infinity s) r
  | mul_zero_r s b r : is_finite b -> measure mb eb b = 0%Z -> not_a_number r -> arithmetic Mul (infinity s) b r

  | div_finite a b r : is_finite a -> is_finite b -> measure mb eb b <> 0%Z ->
      rounds (measure mb eb a * 2 ^ Z.of_N unit_exponent * Z.sgn (measure mb eb b)) (Z.abs (measure mb eb b))
        (xorb (negative a) (negative b)) r -> arithmetic Div a b r
  | div_by_zero a b : is_finite a -> is_finite b -> measure mb eb a <> 0%Z -> measure mb eb b = 0%Z ->
      arithmetic Div a b (infinity (xorb (negative a) (negative b)))
  | div_zeros a b r : is_finite a -> is_finite b -> measure mb eb a = 0%Z -> measure mb eb b = 0%Z -> not_a_number r ->
      arithmetic Div a b r
  | div_infinite_l s b : is_finite b -> arithmetic Div (infinity s) b (infinity (xorb s (negative b)))
  | div_infinite_r a s : is_finite a -> arithmetic Div a (infinity s) (zero (xorb (negative a) s))
  | div_infinities s t r : not_a_number r -> arithmetic Div (infinity s) (infinity t) r

  (** The remainder of the division that truncates. *)
  | rem_finite a b r : is_finite a -> is_finite b -> measure mb eb b <> 0%Z ->
      is_finite r -> measure mb eb r = Z.rem (measure mb eb a) (measure mb eb b) -> negative r = negative a -> arithmetic Rem a b r
  | rem_by_zero a b r : is_finite a -> is_finite b -> measure mb eb b = 0%Z -> not_a_number r -> arithmetic Rem a b r
  | rem_infinite_l s b r : is_finite b -> not_a_number r -> arithmetic Rem (infinity s) b r
  | rem_infinite_r a s : is_finite a -> arithmetic Rem a (infinity s) a
  | rem_infinities s t r : not_a_number r -> arithmetic Rem (infinity s) (infinity t) r.

  (** The change of sign. *)
  Definition opposite (a r : N) : Prop := in_format r /\ negative r = negb (negative a) /\ r mod 2 ^ (mb + eb) = a mod 2 ^ (mb + eb).
End Format.

(** Model of /repo/clr_lite/src/vm/interpreter/value.rs.

    An integer variant is represented by its type and its mathematical value, a float by its
    bit pattern.  The Rust code repeats the same arm for every integer type; the arms are merged
    here into one for all pairs of equal integer types.

    Floating point: the arithmetic of the standard library's SpecFloat (IEEE 754, rounding to
    nearest even).  Rust leaves the sign and payload of a computed NaN open; the model returns
    the positive quiet NaN. *)
From Coq Require Import NArith ZArith String List Bool.
From Coq.Floats Require Import SpecFloat.
From Verif Require Import Base.
Import ListNotations.
Open Scope N_scope.

(** The integer variants of [Value]. *)
Inductive ity := I8 | U8 | I16 | U16 | I32 | U32 | I64 | U64.

Definition ity_eqb (a b : ity) : bool :=
  match a, b with
  | I8, I8 | U8, U8 | I16, I16 | U16, U16 | I32, I32 | U32, U32 | I64, I64 | U64, U64 => true
  | _, _ => false
  end.
Definition ibits (t : ity) : N :=
  match t with I8 | U8 => 8 | I16 | U16 => 16 | I32 | U32 => 32 | I64 | U64 => 64 end.
Definition isigned (t : ity) : bool :=
  match t with I8 | I16 | I32 | I64 => true | _ => false end.

(** gc/object.rs:25-27: a pointer to an object.  It points [o_off] bytes into the buffer that the
    heap had as its [o_gen]-th (see Gc.v). *)
Record obj := mkObj { o_gen : nat; o_off : N }.

(** value.rs:8-21. *)
Inductive value :=
| VInt (t : ity) (x : Z)
| VF32 (bits : N)
| VF64 (bits : N)
| VObject (o : obj).

(** ** Integers *)

Definition imin (t : ity) : Z := if isigned t then (- 2 ^ (Z.of_N (ibits t) - 1))%Z else 0%Z.
Definition imax (t : ity) : Z :=
  if isigned t then (2 ^ (Z.of_N (ibits t) - 1) - 1)%Z else (2 ^ Z.of_N (ibits t) - 1)%Z.
Definition in_ity (t : ity) (x : Z) : bool := ((imin t <=? x) && (x <=? imax t))%Z.

(** The value of type [t] with the bits of [x]. *)
Definition wrap (t : ity) (x : Z) : Z :=
  if isigned t then wrap_signed (ibits t) x else (x mod 2 ^ Z.of_N (ibits t))%Z.

(** [+], [-], [*] and unary [-]: overflow panics in a debug build and wraps in a release build. *)
Definition arith {S} (p : profile) (t : ity) (x : Z) : M S value :=
  if in_ity t x then ret (VInt t x)
  else match p with
       | Debug => panic "attempt to compute with overflow"
       | Release => ret (VInt t (wrap t x))
       end.

(** [/] and [%]: a zero divisor and an overflowing quotient panic in every build. *)
Definition int_div {S} (t : ity) (a b : Z) : M S value :=
  if (b =? 0)%Z then panic "attempt to divide by zero"
  else if in_ity t (Z.quot a b) then ret (VInt t (Z.quot a b))
  else panic "attempt to divide with overflow".
Definition int_rem {S} (t : ity) (a b : Z) : M S value :=
  if (b =? 0)%Z then panic "attempt to calculate the remainder with a divisor of zero"
  else if in_ity t (Z.quot a b) then ret (VInt t (Z.rem a b))
  else panic "attempt to calculate the remainder with overflow".

(** The amount of a shift: a debug build panics unless it is less than the number of bits, a
    release build uses its low bits. *)
Definition shift_amount {S} (p : profile) (t : ity) (b : Z) : M S Z :=
  if ((0 <=? b) && (b <? Z.of_N (ibits t)))%Z then ret b
  else match p with
       | Debug => panic "attempt to shift with overflow"
       | Release => ret (b mod Z.of_N (ibits t))%Z
       end.

(** ** Floats *)

(** A binary format: precision, largest exponent, number of exponent bits. *)
Record fformat := mkFormat { f_prec : Z; f_emax : Z; f_ebits : N }.
Definition single : fformat := mkFormat 24 128 8.
Definition double : fformat := mkFormat 53 1024 11.

Definition fmbits (f : fformat) : N := Z.to_N (f_prec f - 1).
Definition femin (f : fformat) : Z := (3 - f_emax f - f_prec f)%Z.

(** The number with a given bit pattern (IEEE 754, 3.4). *)
Definition of_bits (f : fformat) (b : N) : spec_float :=
  let m := b mod 2 ^ fmbits f in
  let e := (b / 2 ^ fmbits f) mod 2 ^ f_ebits f in
  let s := N.testbit b (fmbits f + f_ebits f) in
  if e =? 2 ^ f_ebits f - 1 then (if m =? 0 then S754_infinity s else S754_nan)
  else if e =? 0 then match m with 0 => S754_zero s | N.pos q => S754_finite s q (femin f) end
  else match m + 2 ^ fmbits f with
       | 0 => S754_zero s
       | N.pos q => S754_finite s q (Z.of_N e - 1 + femin f)
       end.

(** The bit pattern of a number. *)
Definition to_bits (f : fformat) (x : spec_float) : N :=
  let sign (s : bool) := if s then 2 ^ (fmbits f + f_ebits f) else 0 in
  let inf := (2 ^ f_ebits f - 1) * 2 ^ fmbits f in
  match x with
  | S754_zero s => sign s
  | S754_infinity s => sign s + inf
  | S754_nan => inf + 2 ^ (fmbits f - 1)
  | S754_finite s m e =>
      if N.pos m <? 2 ^ fmbits f then sign s + N.pos m
      else sign s + Z.to_N (e - femin f + 1) * 2 ^ fmbits f + (N.pos m - 2 ^ fmbits f)
  end.

(** [%] on floats is C's [fmod]: the exact remainder of the truncating division. *)
Definition fmod (f : fformat) (x y : spec_float) : spec_float :=
  match x, y with
  | S754_nan, _ | _, S754_nan | S754_infinity _, _ | _, S754_zero _ => S754_nan
  | S754_zero s, _ => S754_zero s
  | S754_finite _ _ _, S754_infinity _ => x
  | S754_finite s m e, S754_finite _ m' e' =>
      let c := Z.min e e' in
      let a := (Z.pos m * 2 ^ (e - c))%Z in
      let b := (Z.pos m' * 2 ^ (e' - c))%Z in
      let r := (a mod b)%Z in
      binary_normalize (f_prec f) (f_emax f) (if s then - r else r) c s
  end.

Inductive fop := FAdd | FSub | FMul | FDiv | FRem.
Definition float_op (f : fformat) (o : fop) (a b : N) : N :=
  let x := of_bits f a in
  let y := of_bits f b in
  to_bits f (match o with
             | FAdd => SFadd (f_prec f) (f_emax f) x y
             | FSub => SFsub (f_prec f) (f_emax f) x y
             | FMul => SFmul (f_prec f) (f_emax f) x y
             | FDiv => SFdiv (f_prec f) (f_emax f) x y
             | FRem => fmod f x y
             end).

(** Unary [-] flips the sign bit. *)
Definition float_neg (f : fformat) (a : N) : N := N.lxor a (2 ^ (fmbits f + f_ebits f)).

Definition float_cmp (f : fformat) (a b : N) : option comparison := SFcompare (of_bits f a) (of_bits f b).
Definition float_eq (f : fformat) (a b : N) : bool :=
  match float_cmp f a b with Some Eq => true | _ => false end.

(** ** Operators *)

(** The shape of the binary operators: arms for equal variants, [unimplemented!] for the rest. *)
Definition binary {S} (what : string) (int_case : ity -> Z -> Z -> M S value)
    (float_case : option fop) (a b : value) : M S value :=
  match a, b with
  | VInt t x, VInt u y => if ity_eqb t u then int_case t x y else panic what
  | VF32 x, VF32 y => match float_case with Some o => ret (VF32 (float_op single o x y)) | None => panic what end
  | VF64 x, VF64 y => match float_case with Some o => ret (VF64 (float_op double o x y)) | None => panic what end
  | _, _ => panic what
  end.

(** 61-80, [Add]. *)
Definition v_add {S} (p : profile) : value -> value -> M S value :=
  binary "not implemented: Cannot add" (fun t x y => arith p t (x + y)%Z) (Some FAdd).
(** 82-101, [Sub]. *)
Definition v_sub {S} (p : profile) : value -> value -> M S value :=
  binary "not implemented: Cannot subtract" (fun t x y => arith p t (x - y)%Z) (Some FSub).
(** 103-122, [Mul]. *)
Definition v_mul {S} (p : profile) : value -> value -> M S value :=
  binary "not implemented: Cannot multiply" (fun t x y => arith p t (x * y)%Z) (Some FMul).
(** 124-143, [Div]. *)
Definition v_div {S} : value -> value -> M S value :=
  binary "not implemented: Cannot divide" int_div (Some FDiv).
(** 145-164, [Rem]. *)
Definition v_rem {S} : value -> value -> M S value :=
  binary "not implemented: Cannot calculate the remainder" int_rem (Some FRem).
(** 183-200, [BitAnd]. *)
Definition v_and {S} : value -> value -> M S value :=
  binary "not implemented: Cannot and" (fun t x y => ret (VInt t (Z.land x y))) None.
(** 202-219, [BitOr]. *)
Definition v_or {S} : value -> value -> M S value :=
  binary "not implemented: Cannot or" (fun t x y => ret (VInt t (Z.lor x y))) None.
(** 221-238, [BitXor]. *)
Definition v_xor {S} : value -> value -> M S value :=
  binary "not implemented: Cannot xor" (fun t x y => ret (VInt t (Z.lxor x y))) None.
(** 240-257, [Shl]. *)
Definition v_shl {S} (p : profile) : value -> value -> M S value :=
  binary "not implemented: Cannot shift left"
    (fun t x y => n <- shift_amount p t y ;; ret (VInt t (wrap t (Z.shiftl x n)))) None.
(** 259-276, [Shr]: arithmetic for signed types, logical for unsigned ones. *)
Definition v_shr {S} (p : profile) : value -> value -> M S value :=
  binary "not implemented: Cannot shift right"
    (fun t x y => n <- shift_amount p t y ;; ret (VInt t (Z.shiftr x n))) None.

(** 166-181, [Neg]. *)
Definition v_neg {S} (p : profile) (a : value) : M S value :=
  match a with
  | VInt t x => if isigned t then arith p t (- x)%Z else panic "not implemented: Cannot negate"
  | VF32 b => ret (VF32 (float_neg single b))
  | VF64 b => ret (VF64 (float_neg double b))
  | VObject _ => panic "not implemented: Cannot negate"
  end.

(** 278-295, [Not]. *)
Definition v_not {S} (a : value) : M S value :=
  match a with
  | VInt t x => ret (VInt t (if isigned t then Z.lnot x else imax t - x)%Z)
  | _ => panic "not implemented: Cannot !"
  end.

(** 24-39, [is_null_or_zero]. *)
Definition is_null_or_zero {S} (a : value) : M S bool :=
  match a with
  | VInt _ x => ret (x =? 0)%Z
  | VF32 b => ret (float_eq single b 0)
  | VF64 b => ret (float_eq double b 0)
  | VObject _ => panic "not implemented: Cannot check if null or zero"
  end.

(** 42-59, [partial_cmp]. *)
Definition v_cmp {S} (a b : value) : M S (option comparison) :=
  match a, b with
  | VInt t x, VInt u y => if ity_eqb t u then ret (Some (x ?= y)%Z) else panic "not implemented: Cannot compare"
  | VF32 x, VF32 y => ret (float_cmp single x y)
  | VF64 x, VF64 y => ret (float_cmp double x y)
  | _, _ => panic "not implemented: Cannot compare"
  end.

(** The operators that [PartialOrd] provides. *)
Definition v_lt {S} (a b : value) : M S bool :=
  c <- v_cmp a b ;; ret (match c with Some Lt => true | _ => false end).
Definition v_le {S} (a b : value) : M S bool :=
  c <- v_cmp a b ;; ret (match c with Some Lt | Some Eq => true | _ => false end).
Definition v_gt {S} (a b : value) : M S bool :=
  c <- v_cmp a b ;; ret (match c with Some Gt => true | _ => false end).
Definition v_ge {S} (a b : value) : M S bool :=
  c <- v_cmp a b ;; ret (match c with Some Gt | Some Eq => true | _ => false end).

(** 8, the derived [PartialEq]: different variants are different.  Pointers are compared by
    address; two pointers into different buffers have addresses that the program cannot know, so
    the model does not answer. *)
Definition v_eq {S} (a b : value) : M S bool :=
  match a, b with
  | VInt t x, VInt u y => ret (ity_eqb t u && (x =? y)%Z)
  | VF32 x, VF32 y => ret (float_eq single x y)
  | VF64 x, VF64 y => ret (float_eq double x y)
  | VObject x, VObject y =>
      if Nat.eqb (o_gen x) (o_gen y) then ret (o_off x =? o_off y)
      else ub "model: comparison with a pointer into a buffer that has been moved"
  | _, _ => ret false
  end.

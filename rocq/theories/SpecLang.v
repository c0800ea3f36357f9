(** A small structured language on 32-bit integers, its meaning, and the CIL code that a compiler
    produces for it.  Nothing here refers to the interpreter; the instructions are those of SpecExec
    (ECMA-335, partition III). *)
From Coq Require Import NArith ZArith List Bool.
From Coq.Strings Require Import Byte.
From Verif Require Import Base Value SpecExec.
Import ListNotations.
Open Scope N_scope.

(** ** Programs *)

Inductive unary := Negate | Complement.
Inductive binary := Plus | Minus | Times | Over | Modulo | BitAnd | BitOr | BitXor | ShiftLeft | ShiftRight
  | Equal | Greater | Less.
(** A variable is an argument or a local variable, with its number. *)
Inductive expr :=
| Number (z : Z)
| Var (argument : bool) (i : N)
| Unary (o : unary) (e : expr)
| Binary (o : binary) (a b : expr).
(** A condition: an expression that is not zero, or a comparison. *)
Inductive relation := IsEq | IsGe | IsGt | IsLe | IsLt.
Inductive cond := Nonzero (e : expr) | Rel (r : relation) (a b : expr).
Inductive stmt :=
| Skip
| Assign (argument : bool) (i : N) (e : expr)
| Seq (a b : stmt)
| If (c : cond) (a b : stmt)
| While (c : cond) (a : stmt)
| Return (e : expr).

(** ** Meaning *)

(** The numbers of the language are those of 32 bits. *)
Definition int32 (z : Z) : Prop := (-2147483648 <= z <= 2147483647)%Z.
Definition is_int32 (z : Z) : bool := ((-2147483648 <=? z) && (z <=? 2147483647))%Z.
Definition wrap32 (z : Z) : Z := ((z + 2147483648) mod 4294967296 - 2147483648)%Z.

(** What evaluating gives: a number, a trap (the program stops with a panic), or nothing that is
    laid down: shifts by a distance that is not in 0..31, and variables that do not exist or have not
    been assigned. *)
Inductive answer := Gives (z : Z) | Trap | Unspecified.
Definition then_with (a : answer) (k : Z -> answer) : answer :=
  match a with Gives z => k z | Trap => Trap | Unspecified => Unspecified end.

(** A result out of range: debug builds trap, release builds wrap around. *)
Definition reduce (p : profile) (z : Z) : answer :=
  if is_int32 z then Gives z else match p with Debug => Trap | Release => Gives (wrap32 z) end.
Definition truth (b : bool) : answer := Gives (if b then 1 else 0).

Definition unary_meaning (p : profile) (o : unary) (x : Z) : answer :=
  match o with Negate => reduce p (- x) | Complement => Gives (- x - 1) end.
Definition binary_meaning (p : profile) (o : binary) (x y : Z) : answer :=
  match o with
  | Plus => reduce p (x + y)
  | Minus => reduce p (x - y)
  | Times => reduce p (x * y)
  | Over => if (y =? 0)%Z then Trap else if is_int32 (x ÷ y) then Gives (x ÷ y) else Trap
  | Modulo => if (y =? 0)%Z then Trap else if is_int32 (x ÷ y) then Gives (Z.rem x y) else Trap
  | BitAnd => Gives (Z.land x y)
  | BitOr => Gives (Z.lor x y)
  | BitXor => Gives (Z.lxor x y)
  | ShiftLeft => if ((0 <=? y) && (y <? 32))%Z then Gives (wrap32 (x * 2 ^ y)) else Unspecified
  | ShiftRight => if ((0 <=? y) && (y <? 32))%Z then Gives (x / 2 ^ y)%Z else Unspecified
  | Equal => truth (x =? y)%Z
  | Greater => truth (y <? x)%Z
  | Less => truth (x <? y)%Z
  end.

(** The arguments, and the local variables as far as they have been assigned. *)
Record env := mkEnv { e_args : list Z; e_locals : list (option Z) }.
Definition look_up (en : env) (argument : bool) (i : N) : answer :=
  if argument
  then match nth_error (e_args en) (N.to_nat i) with Some z => Gives z | None => Unspecified end
  else match nth_error (e_locals en) (N.to_nat i) with Some (Some z) => Gives z | _ => Unspecified end.
Fixpoint replace_nth {A} (i : nat) (x : A) (l : list A) : list A :=
  match l, i with
  | [], _ => []
  | _ :: l', O => x :: l'
  | y :: l', S j => y :: replace_nth j x l'
  end.
Definition exists_var (en : env) (argument : bool) (i : N) : bool :=
  if argument then (N.to_nat i <? List.length (e_args en))%nat
  else (N.to_nat i <? List.length (e_locals en))%nat.
Definition assign (en : env) (argument : bool) (i : N) (z : Z) : env :=
  if argument then mkEnv (replace_nth (N.to_nat i) z (e_args en)) (e_locals en)
  else mkEnv (e_args en) (replace_nth (N.to_nat i) (Some z) (e_locals en)).

(** Operands are evaluated from left to right. *)
Fixpoint eval (p : profile) (en : env) (e : expr) : answer :=
  match e with
  | Number z => Gives z
  | Var argument i => look_up en argument i
  | Unary o a => then_with (eval p en a) (unary_meaning p o)
  | Binary o a b => then_with (eval p en a) (fun x => then_with (eval p en b) (binary_meaning p o x))
  end.
Definition related (r : relation) (c : comparison) : bool :=
  match r, c with
  | IsEq, Eq | IsGe, Eq | IsGe, Gt | IsGt, Gt | IsLe, Eq | IsLe, Lt | IsLt, Lt => true
  | _, _ => false
  end.
(** A condition is true when its answer is not 0. *)
Definition eval_cond (p : profile) (en : env) (c : cond) : answer :=
  match c with
  | Nonzero e => eval p en e
  | Rel r a b => then_with (eval p en a) (fun x => then_with (eval p en b) (fun y => truth (related r (x ?= y)%Z)))
  end.

(** How a statement ends: behind its end, with [return], in a trap, or in a way that is not laid
    down.  A statement that does not end has no such outcome. *)
Inductive conclusion := Goes (en : env) | Returns (z : Z) (en : env) | Traps | Unknown.
Definition stops (f : conclusion) : Prop := match f with Goes _ => False | _ => True end.
Definition no_number (a : answer) (f : conclusion) : Prop :=
  a = Trap /\ f = Traps \/ a = Unspecified /\ f = Unknown.

Section Meaning.
  Variable p : profile.
  Inductive finishes : env -> stmt -> conclusion -> Prop :=
  | fin_skip en : finishes en Skip (Goes en)
  | fin_assign en arg i e z : eval p en e = Gives z -> exists_var en arg i = true ->
      finishes en (Assign arg i e) (Goes (assign en arg i z))
  | fin_assign_missing en arg i e z : eval p en e = Gives z -> exists_var en arg i = false ->
      finishes en (Assign arg i e) Unknown
  | fin_assign_no en arg i e f : no_number (eval p en e) f -> finishes en (Assign arg i e) f
  | fin_seq en a b en1 f : finishes en a (Goes en1) -> finishes en1 b f -> finishes en (Seq a b) f
  | fin_seq_stops en a b f : finishes en a f -> stops f -> finishes en (Seq a b) f
  | fin_if en c a b z f : eval_cond p en c = Gives z -> finishes en (if (z =? 0)%Z then b else a) f ->
      finishes en (If c a b) f
  | fin_if_no en c a b f : no_number (eval_cond p en c) f -> finishes en (If c a b) f
  | fin_while_end en c a : eval_cond p en c = Gives 0 -> finishes en (While c a) (Goes en)
  | fin_while en c a z en1 f : eval_cond p en c = Gives z -> z <> 0%Z ->
      finishes en a (Goes en1) -> finishes en1 (While c a) f -> finishes en (While c a) f
  | fin_while_stops en c a z f : eval_cond p en c = Gives z -> z <> 0%Z ->
      finishes en a f -> stops f -> finishes en (While c a) f
  | fin_while_no en c a f : no_number (eval_cond p en c) f -> finishes en (While c a) f
  | fin_return en e z : eval p en e = Gives z -> finishes en (Return e) (Returns z en)
  | fin_return_no en e f : no_number (eval p en e) f -> finishes en (Return e) f.
End Meaning.

(** ** Code *)

Inductive unary_code : unary -> byte -> Prop :=
| op_neg : unary_code Negate x65
| op_not : unary_code Complement x66.
Inductive binary_code : binary -> list byte -> Prop :=
| op_add : binary_code Plus [x58]
| op_sub : binary_code Minus [x59]
| op_mul : binary_code Times [x5a]
| op_div : binary_code Over [x5b]
| op_rem : binary_code Modulo [x5d]
| op_and : binary_code BitAnd [x5f]
| op_or : binary_code BitOr [x60]
| op_xor : binary_code BitXor [x61]
| op_shl : binary_code ShiftLeft [x62]
| op_shr : binary_code ShiftRight [x63]
| op_equal : binary_code Equal [xfe; x01]
| op_greater : binary_code Greater [xfe; x02]
| op_less : binary_code Less [xfe; x04].

(** The code of an expression: its operands from left to right, then the instruction.  Each constant
    and each variable may be encoded in any of the forms there are. *)
Inductive expr_code : expr -> list byte -> Prop :=
| code_number z bs : constant_code bs (VInt I32 z) -> expr_code (Number z) bs
| code_var argument i bs : load_code bs argument i -> expr_code (Var argument i) bs
| code_unary o a bs i : unary_code o i -> expr_code a bs -> expr_code (Unary o a) (bs ++ [i])
| code_binary o a b bs cs is : binary_code o is -> expr_code a bs -> expr_code b cs ->
    expr_code (Binary o a b) (bs ++ cs ++ is).

(** Code, without the displacement of [n] bytes that follows, that branches if and only if the
    condition is true ([want] is true) or false ([want] is false). *)
Inductive branch_on : cond -> bool -> list byte -> nat -> Prop :=
| branch_nonzero e bs i n zero : expr_code e bs -> zero_branch_code i n zero ->
    branch_on (Nonzero e) (negb zero) (bs ++ [i]) n
| branch_rel r a b bs cs i n rel want : expr_code a bs -> expr_code b cs -> branch_code i n rel ->
    (forall c, rel c <-> related r c = want) -> branch_on (Rel r a b) want (bs ++ cs ++ [i]) n.

(** The number of bytes, as an integer. *)
Definition size (bs : list byte) : Z := Z.of_nat (List.length bs).

(** The code of a statement.  [ds] and [es] are the displacements, counted from the end of the
    branch instruction. *)
Inductive stmt_code : stmt -> list byte -> Prop :=
| code_skip : stmt_code Skip []
| code_nop : stmt_code Skip [x00]
| code_assign argument i e bs cs : expr_code e bs -> store_code cs argument i ->
    stmt_code (Assign argument i e) (bs ++ cs)
| code_seq a b bs cs : stmt_code a bs -> stmt_code b cs -> stmt_code (Seq a b) (bs ++ cs)
  (* branch-if-not L; a; jump M; L: b; M: *)
| code_if c a b ts n ds bs j k es cs : branch_on c false ts n -> List.length ds = n ->
    stmt_code a bs -> jump_code j k -> List.length es = k -> stmt_code b cs ->
    signed_number ds = (size bs + 1 + Z.of_nat k)%Z -> signed_number es = size cs ->
    stmt_code (If c a b) (ts ++ ds ++ bs ++ [j] ++ es ++ cs)
  (* branch-if-not L; a; L: *)
| code_if_then c a ts n ds bs : branch_on c false ts n -> List.length ds = n ->
    stmt_code a bs -> signed_number ds = size bs ->
    stmt_code (If c a Skip) (ts ++ ds ++ bs)
  (* L: branch-if-not M; a; jump L; M: *)
| code_while c a ts n ds bs j k es : branch_on c false ts n -> List.length ds = n ->
    stmt_code a bs -> jump_code j k -> List.length es = k ->
    signed_number ds = (size bs + 1 + Z.of_nat k)%Z ->
    signed_number es = (- (size ts + Z.of_nat n + size bs + 1 + Z.of_nat k))%Z ->
    stmt_code (While c a) (ts ++ ds ++ bs ++ [j] ++ es)
  (* jump M; L: a; M: branch-if L *)
| code_while_test_last c a ts n ds bs j k es : jump_code j k -> List.length es = k ->
    stmt_code a bs -> branch_on c true ts n -> List.length ds = n ->
    signed_number es = size bs -> signed_number ds = (- (size bs + size ts + Z.of_nat n))%Z ->
    stmt_code (While c a) ([j] ++ es ++ bs ++ ts ++ ds)
| code_return e bs : expr_code e bs -> stmt_code (Return e) (bs ++ [x2a]).

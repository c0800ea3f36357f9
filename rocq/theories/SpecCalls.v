(** Programs of several functions that call each other and print, their meaning, and the CIL code
    that a compiler produces for them.  Numbers, operators and environments are those of SpecLang.
    Nothing here refers to the interpreter's loop; what a token stands for is said by SpecStack and
    SpecHeap, and instructions are those of SpecExec (ECMA-335, partition III). *)
From Coq Require Import NArith ZArith String List Bool.
From Coq.Strings Require Import Byte.
From Verif Require Import Base Runtime Value SpecUtf SpecExec SpecStack SpecHeap SpecLang.
Import ListNotations.
Open Scope N_scope.

(** ** Programs *)

(** Functions are numbered; [XCall g es] is the result of function [g] with arguments [es]. *)
Inductive exp :=
| XNumber (z : Z)
| XVar (argument : bool) (i : N)
| XUnary (o : unary) (e : exp)
| XBinary (o : binary) (a b : exp)
| XCall (g : nat) (es : exps)
with exps := XNone | XMore (e : exp) (es : exps).
Inductive test := TNonzero (e : exp) | TRel (r : relation) (a b : exp) | TNot (c : test).
(** [CDo g es] calls a function without a result, [CIgnore e] drops the value of [e], and [CPrint]
    writes a literal text to the console. *)
Inductive com :=
| CSkip
| CAssign (argument : bool) (i : N) (e : exp)
| CSeq (a b : com)
| CIf (c : test) (a b : com)
| CWhile (c : test) (a : com)
| CReturn (o : option exp)
| CDo (g : nat) (es : exps)
| CIgnore (e : exp)
| CPrint (text : list N).

Record function := mkFunction {
  fn_params : nat;      (* number of parameters *)
  fn_locals : nat;      (* number of local variables *)
  fn_result : bool;     (* whether it has a result *)
  fn_body : com }.

(** ** Meaning *)

(** The resources of the runtime that programs use up, and the text printed so far: cells for
    arguments and local variables, and bytes for strings. *)
Record world := mkWorld { w_cells : N; w_bytes : N; w_text : list N }.

(** How evaluation ends: normally, with a panic, or in a way that is not laid down (SpecLang, and
    when the resources are used up).  What does not end has no outcome. *)
Inductive outcome (A : Type) := Normal (a : A) (w : world) | Panics | Unlaid.
Arguments Normal {A}. Arguments Panics {A}. Arguments Unlaid {A}.
Definition abrupt {A B} (r : outcome A) (r' : outcome B) : Prop :=
  r = Panics /\ r' = Panics \/ r = Unlaid /\ r' = Unlaid.
Definition outcome_of (a : answer) (w : world) : outcome Z :=
  match a with Gives z => Normal z w | Trap => Panics | Unspecified => Unlaid end.

(** A command ends at its end or with [return]. *)
Inductive progress := Onward (en : env) | Back (o : option Z) (en : env).

(** The environment in which a function starts: the arguments, and no local variable assigned. *)
Definition start (args : list Z) (n : nat) : env := mkEnv args (repeat None n).

(** A call takes cells for the arguments and for the local variables.  The latter are given back at
    the end of the call; the former belong to the caller, and are given back when the caller ends. *)
Definition enter (w : world) (f : function) : world :=
  mkWorld (w_cells w + N.of_nat (fn_params f) + N.of_nat (fn_locals f)) (w_bytes w) (w_text w).
Definition leave (w : world) (f : function) (w' : world) : world :=
  mkWorld (w_cells w + N.of_nat (fn_params f)) (w_bytes w') (w_text w').
(** A literal takes a cell for the argument of the call that prints it, and a string on the heap. *)
Definition string_bytes (text : list N) : N := 13 + 2 * len (utf16_encode text).
Definition after_print (w : world) (text : list N) : world :=
  mkWorld (w_cells w + 1) (w_bytes w + string_bytes text) (w_text w ++ text).

Section Meaning.
  (** The build, the functions, and the number of cells there are. *)
  Variables (p : profile) (P : list function) (limit : N).

  Definition may_enter (w : world) (f : function) : Prop := w_cells (enter w f) <= limit.
  Definition may_print (w : world) (text : list N) : Prop :=
    w_cells (after_print w text) <= limit /\ w_bytes (after_print w text) < 2 ^ 62.

  Inductive evals : world -> env -> exp -> outcome Z -> Prop :=
  | ev_number w en z : evals w en (XNumber z) (Normal z w)
  | ev_var w en arg i : evals w en (XVar arg i) (outcome_of (look_up en arg i) w)
  | ev_unary w en o a x w1 : evals w en a (Normal x w1) ->
      evals w en (XUnary o a) (outcome_of (unary_meaning p o x) w1)
  | ev_unary_no w en o a r r' : evals w en a r -> abrupt r r' -> evals w en (XUnary o a) r'
  | ev_binary w en o a b x w1 y w2 : evals w en a (Normal x w1) -> evals w1 en b (Normal y w2) ->
      evals w en (XBinary o a b) (outcome_of (binary_meaning p o x y) w2)
  | ev_binary_no w en o a b r r' : evals w en a r -> abrupt r r' -> evals w en (XBinary o a b) r'
  | ev_binary_no_second w en o a b x w1 r r' : evals w en a (Normal x w1) -> evals w1 en b r -> abrupt r r' ->
      evals w en (XBinary o a b) r'
  | ev_call w en g es zs w1 z w2 : evals_all w en es (Normal zs w1) -> applies w1 g zs (Normal (Some z) w2) ->
      evals w en (XCall g es) (Normal z w2)
  | ev_call_no w en g es zs w1 r r' : evals_all w en es (Normal zs w1) -> applies w1 g zs r -> abrupt r r' ->
      evals w en (XCall g es) r'
  | ev_call_no_args w en g es r r' : evals_all w en es r -> abrupt r r' -> evals w en (XCall g es) r'

  with evals_all : world -> env -> exps -> outcome (list Z) -> Prop :=
  | ev_none w en : evals_all w en XNone (Normal [] w)
  | ev_more w en e es z w1 zs w2 : evals w en e (Normal z w1) -> evals_all w1 en es (Normal zs w2) ->
      evals_all w en (XMore e es) (Normal (z :: zs) w2)
  | ev_more_no w en e es r r' : evals w en e r -> abrupt r r' -> evals_all w en (XMore e es) r'
  | ev_more_no_rest w en e es z w1 r r' : evals w en e (Normal z w1) -> evals_all w1 en es r -> abrupt r r' ->
      evals_all w en (XMore e es) r'

  (** Calling function [g] with arguments [zs].  A body without [return] at its end panics. *)
  with applies : world -> nat -> list Z -> outcome (option Z) -> Prop :=
  | ap_back w g f zs o en w' : nth_error P g = Some f -> may_enter w f ->
      does (enter w f) (start zs (fn_locals f)) (fn_body f) (Normal (Back o en) w') ->
      applies w g zs (Normal o (leave w f w'))
  | ap_onward w g f zs en w' : nth_error P g = Some f -> may_enter w f ->
      does (enter w f) (start zs (fn_locals f)) (fn_body f) (Normal (Onward en) w') ->
      applies w g zs Panics
  | ap_no w g f zs r r' : nth_error P g = Some f -> may_enter w f ->
      does (enter w f) (start zs (fn_locals f)) (fn_body f) r -> abrupt r r' -> applies w g zs r'
  | ap_no_room w g f zs : nth_error P g = Some f -> ~ may_enter w f -> applies w g zs Unlaid

  with tests : world -> env -> test -> outcome bool -> Prop :=
  | te_nonzero w en e z w' : evals w en e (Normal z w') -> tests w en (TNonzero e) (Normal (negb (z =? 0)%Z) w')
  | te_nonzero_no w en e r r' : evals w en e r -> abrupt r r' -> tests w en (TNonzero e) r'
  | te_rel w en r a b x w1 y w2 : evals w en a (Normal x w1) -> evals w1 en b (Normal y w2) ->
      tests w en (TRel r a b) (Normal (related r (x ?= y)%Z) w2)
  | te_rel_no w en r a b q q' : evals w en a q -> abrupt q q' -> tests w en (TRel r a b) q'
  | te_rel_no_second w en r a b x w1 q q' : evals w en a (Normal x w1) -> evals w1 en b q -> abrupt q q' ->
      tests w en (TRel r a b) q'
  | te_not w en c b w' : tests w en c (Normal b w') -> tests w en (TNot c) (Normal (negb b) w')
  | te_not_no w en c r r' : tests w en c r -> abrupt r r' -> tests w en (TNot c) r'

  with does : world -> env -> com -> outcome progress -> Prop :=
  | do_skip w en : does w en CSkip (Normal (Onward en) w)
  | do_assign w en arg i e z w' : evals w en e (Normal z w') -> exists_var en arg i = true ->
      does w en (CAssign arg i e) (Normal (Onward (assign en arg i z)) w')
  | do_assign_missing w en arg i e z w' : evals w en e (Normal z w') -> exists_var en arg i = false ->
      does w en (CAssign arg i e) Unlaid
  | do_assign_no w en arg i e r r' : evals w en e r -> abrupt r r' -> does w en (CAssign arg i e) r'
  | do_seq w en a b en1 w1 r : does w en a (Normal (Onward en1) w1) -> does w1 en1 b r -> does w en (CSeq a b) r
  | do_seq_back w en a b o en1 w1 : does w en a (Normal (Back o en1) w1) -> does w en (CSeq a b) (Normal (Back o en1) w1)
  | do_seq_no w en a b r r' : does w en a r -> abrupt r r' -> does w en (CSeq a b) r'
  | do_if w en c a b t w1 r : tests w en c (Normal t w1) -> does w1 en (if t : bool then a else b) r ->
      does w en (CIf c a b) r
  | do_if_no w en c a b r r' : tests w en c r -> abrupt r r' -> does w en (CIf c a b) r'
  | do_while_end w en c a w1 : tests w en c (Normal false w1) -> does w en (CWhile c a) (Normal (Onward en) w1)
  | do_while w en c a w1 en2 w2 r : tests w en c (Normal true w1) -> does w1 en a (Normal (Onward en2) w2) ->
      does w2 en2 (CWhile c a) r -> does w en (CWhile c a) r
  | do_while_back w en c a w1 o en2 w2 : tests w en c (Normal true w1) -> does w1 en a (Normal (Back o en2) w2) ->
      does w en (CWhile c a) (Normal (Back o en2) w2)
  | do_while_no_body w en c a w1 r r' : tests w en c (Normal true w1) -> does w1 en a r -> abrupt r r' ->
      does w en (CWhile c a) r'
  | do_while_no w en c a r r' : tests w en c r -> abrupt r r' -> does w en (CWhile c a) r'
  | do_return w en e z w' : evals w en e (Normal z w') -> does w en (CReturn (Some e)) (Normal (Back (Some z) en) w')
  | do_return_no w en e r r' : evals w en e r -> abrupt r r' -> does w en (CReturn (Some e)) r'
  | do_return_none w en : does w en (CReturn None) (Normal (Back None en) w)
  | do_call w en g es zs w1 w2 : evals_all w en es (Normal zs w1) -> applies w1 g zs (Normal None w2) ->
      does w en (CDo g es) (Normal (Onward en) w2)
  | do_call_no w en g es zs w1 r r' : evals_all w en es (Normal zs w1) -> applies w1 g zs r -> abrupt r r' ->
      does w en (CDo g es) r'
  | do_call_no_args w en g es r r' : evals_all w en es r -> abrupt r r' -> does w en (CDo g es) r'
  | do_ignore w en e z w' : evals w en e (Normal z w') -> does w en (CIgnore e) (Normal (Onward en) w')
  | do_ignore_no w en e r r' : evals w en e r -> abrupt r r' -> does w en (CIgnore e) r'
  | do_print w en text : may_print w text -> does w en (CPrint text) (Normal (Onward en) (after_print w text))
  | do_print_no_room w en text : ~ may_print w text -> does w en (CPrint text) Unlaid.
End Meaning.

Scheme evals_mut := Induction for evals Sort Prop
  with evals_all_mut := Induction for evals_all Sort Prop
  with applies_mut := Induction for applies Sort Prop
  with tests_mut := Induction for tests Sort Prop
  with does_mut := Induction for does Sort Prop.
Combined Scheme meaning_ind from evals_mut, evals_all_mut, applies_mut, tests_mut, does_mut.

(** ** Code *)

Fixpoint count (es : exps) : nat := match es with XNone => 0 | XMore _ es' => S (count es') end.

(** What the tokens in code stand for: functions of the program, literal texts, and
    [Console.Write(string)].  Tokens are sequences of four bytes. *)
Record tokens := mkTokens {
  for_function : list byte -> nat -> Prop;
  for_text : list byte -> list N -> Prop;
  for_writer : list byte -> Prop }.

Section Code.
  (** The functions, and the meaning of tokens. *)
  Variables (P : list function) (T : tokens).

  Inductive exp_code : exp -> list byte -> Prop :=
  | xc_number z bs : constant_code bs (VInt I32 z) -> exp_code (XNumber z) bs
  | xc_var argument i bs : load_code bs argument i -> exp_code (XVar argument i) bs
  | xc_unary o e bs i : unary_code o i -> exp_code e bs -> exp_code (XUnary o e) (bs ++ [i])
  | xc_binary o e1 e2 bs cs is : binary_code o is -> exp_code e1 bs -> exp_code e2 cs ->
      exp_code (XBinary o e1 e2) (bs ++ cs ++ is)
  | xc_call g f es bs t : nth_error P g = Some f -> fn_result f = true -> count es = fn_params f ->
      exps_code es bs -> for_function T t g -> exp_code (XCall g es) (bs ++ [x28] ++ t)
  with exps_code : exps -> list byte -> Prop :=
  | xc_none : exps_code XNone []
  | xc_more e es bs cs : exp_code e bs -> exps_code es cs -> exps_code (XMore e es) (bs ++ cs).

  (** As [branch_on] in SpecLang. *)
  Inductive test_code : test -> bool -> list byte -> nat -> Prop :=
  | tc_nonzero e bs i n zero : exp_code e bs -> zero_branch_code i n zero ->
      test_code (TNonzero e) (negb zero) (bs ++ [i]) n
  | tc_rel r e1 e2 bs cs i n rel want : exp_code e1 bs -> exp_code e2 cs -> branch_code i n rel ->
      (forall c, rel c <-> related r c = want) -> test_code (TRel r e1 e2) want (bs ++ cs ++ [i]) n
  | tc_not c want ts n : test_code c (negb want) ts n -> test_code (TNot c) want ts n.

  (** The code of a command in a function with a result ([has] is true) or without. *)
  Inductive com_code (has : bool) : com -> list byte -> Prop :=
  | cc_skip : com_code has CSkip []
  | cc_nop : com_code has CSkip [x00]
  | cc_assign argument i e bs cs : exp_code e bs -> store_code cs argument i ->
      com_code has (CAssign argument i e) (bs ++ cs)
  | cc_seq b c bs cs : com_code has b bs -> com_code has c cs -> com_code has (CSeq b c) (bs ++ cs)
    (* branch-if-not L; b; jump M; L: d; M: *)
  | cc_if c b d ts n ds bs j k es cs : test_code c false ts n -> List.length ds = n ->
      com_code has b bs -> jump_code j k -> List.length es = k -> com_code has d cs ->
      signed_number ds = (size bs + 1 + Z.of_nat k)%Z -> signed_number es = size cs ->
      com_code has (CIf c b d) (ts ++ ds ++ bs ++ [j] ++ es ++ cs)
    (* branch-if-not L; b; L: *)
  | cc_if_then c b ts n ds bs : test_code c false ts n -> List.length ds = n ->
      com_code has b bs -> signed_number ds = size bs ->
      com_code has (CIf c b CSkip) (ts ++ ds ++ bs)
    (* L: branch-if-not M; b; jump L; M: *)
  | cc_while c b ts n ds bs j k es : test_code c false ts n -> List.length ds = n ->
      com_code has b bs -> jump_code j k -> List.length es = k ->
      signed_number ds = (size bs + 1 + Z.of_nat k)%Z ->
      signed_number es = (- (size ts + Z.of_nat n + size bs + 1 + Z.of_nat k))%Z ->
      com_code has (CWhile c b) (ts ++ ds ++ bs ++ [j] ++ es)
    (* jump M; L: b; M: branch-if L *)
  | cc_while_test_last c b ts n ds bs j k es : jump_code j k -> List.length es = k ->
      com_code has b bs -> test_code c true ts n -> List.length ds = n ->
      signed_number es = size bs -> signed_number ds = (- (size bs + size ts + Z.of_nat n))%Z ->
      com_code has (CWhile c b) ([j] ++ es ++ bs ++ ts ++ ds)
  | cc_return e bs : has = true -> exp_code e bs -> com_code has (CReturn (Some e)) (bs ++ [x2a])
  | cc_return_none : has = false -> com_code has (CReturn None) [x2a]
  | cc_do g f es bs t : nth_error P g = Some f -> fn_result f = false -> count es = fn_params f ->
      exps_code es bs -> for_function T t g -> com_code has (CDo g es) (bs ++ [x28] ++ t)
  | cc_ignore e bs : exp_code e bs -> com_code has (CIgnore e) (bs ++ [x26])
    (* ldstr; call *)
  | cc_print text t u : for_text T t text -> for_writer T u -> com_code has (CPrint text) ([x72] ++ t ++ [x28] ++ u).
End Code.

Scheme exp_code_mut := Induction for exp_code Sort Prop
  with exps_code_mut := Induction for exps_code Sort Prop.
Combined Scheme codes_ind from exp_code_mut, exps_code_mut.

(** ** Code in the runtime *)

Section Resolved.
  (** The runtime, the methods that are compiled from the functions, and the assembly whose code
      contains the tokens. *)
  Variables (s : vm) (ms : list method_info) (a : aref).

  (** The token [bs] stands for the method of function [g]. *)
  Definition names (bs : list byte) (g : nat) : Prop :=
    List.length bs = 4%nat /\ exists m, nth_error ms g = Some m /\ denotes s a (Z.to_N (number bs)) m.
  (** It stands for the literal [text]. *)
  Definition literal (bs : list byte) (text : list N) : Prop :=
    List.length bs = 4%nat /\ Forall scalar text /\ denotes_string s a (Z.to_N (number bs)) (utf16_encode text) /\
    exists ti, In ti (c_types s) /\ ti_full_name ti = bytes_of_string "System.String".
  (** It stands for [Console.Write(string)]. *)
  Definition writer (bs : list byte) : Prop :=
    List.length bs = 4%nat /\ exists m, denotes s a (Z.to_N (number bs)) m /\
      mt_impl m = IInternal ConsoleWrite /\ arguments m = 1%nat.
  Definition resolved : tokens := mkTokens names literal writer.
End Resolved.

(** Method [m] of a loaded type is function [f] of the program, compiled. *)
Record compiled_function (s : vm) (P : list function) (ms : list method_info) (f : function) (m : method_info) : Prop := mkCompiledFunction {
  cf_static : mt_static m = true;
  cf_params : List.length (mt_params m) = fn_params f;
  cf_result : results s m (if fn_result f then 1 else 0);
  cf_code : exists ti ai b, nth_error (c_types s) (mt_declaring m) = Some ti /\
    nth_error (c_arena s) (ti_assembly ti) = Some (Some ai) /\
    mt_impl m = IIL b /\ List.length (b_locals b) = fn_locals f /\ len (b_code b) < 2 ^ 32 /\
    com_code P (resolved s ms (ti_assembly ti)) (fn_result f) (fn_body f) (b_code b) }.
Definition compiled_program (s : vm) (P : list function) (ms : list method_info) : Prop :=
  Forall2 (compiled_function s P ms) P ms.

(** ** Executions by the host *)

(** The cells that there are for an execution of a function with [n] local variables, unless the
    storage grows. *)
Definition storage (n : N) : N := if n <=? 64 then 64 else N.max 128 n.
(** The host keeps the arguments of the function that it starts. *)
Definition outset (f : function) : world := mkWorld (N.of_nat (fn_locals f)) 0 [].

(** Compiled programs compute what their source says: C57 and C64. *)
From Coq Require Import NArith ZArith String List Bool Lia.
From Coq.Strings Require Import Byte.
From Verif Require Import Base BaseFacts Metadata Runtime Value Opcodes Gc Interp SpecExec SpecFrames SpecStack SpecRuntime SpecHistory SpecLang
  InterpFacts FrameFacts TraceFacts StackFacts HistoryProofs LangFacts LangProofs DemoStates DemoRuns PropsValue.
Import ListNotations.
Open Scope N_scope.

(** The code of method [m] of a loaded type is [st], compiled, with [n] local variables; [m] is static
    and has a result. *)
Record compiled (s : vm) (m : method_info) (st : stmt) (n : nat) : Prop := mkCompiled {
  cm_static : mt_static m = true;
  cm_result : results s m 1;
  cm_code : exists b, mt_impl m = IIL b /\ stmt_code st (b_code b) /\ len (b_code b) < 2 ^ 32 /\ List.length (b_locals b) = n;
  cm_loaded : exists ti ai, nth_error (c_types s) (mt_declaring m) = Some ti /\
    nth_error (c_arena s) (ti_assembly ti) = Some (Some ai) }.

(** The environment in which a method starts: the arguments, and no local variable assigned. *)
Definition start (args : list Z) (n : nat) : env := mkEnv args (repeat None n).

(** What an execution by the host must be if the program ends with [f]. *)
Definition observed (s : vm) (f : conclusion) (r : res vm (run_result * list value)) : Prop :=
  match f with
  | Returns z en => r = Ok (RValue (VInt I32 z), map (VInt I32) (e_args en)) s
  | Traps | Goes _ => exists why, r = Panic why
  | Unknown => True
  end.

(** ** Proofs *)

Lemma ret_value f p fr s v base : consistent p (x_vm s) -> code_here fr [x2a] -> results (x_vm s) (fr_method fr) 1 ->
  x_operands s = v :: base -> step f p fr s = Ok (OReturn (Some v)) (set_operands s base).
Proof.
  intros W C R O. step_at C. unfold ret_op. unfold bind at 1, on_vm at 1, get_type. cbn [fr_method set_ip].
  replace (set_vm s (x_vm s)) with s by now destruct s.
  pose proof (map_ok _ _ W (bytes_of_string "System.Void")) as MO. inversion R as [|ti Et Hn].
  assert (E0 : forall t tj, nth_error (c_types (x_vm s)) t = Some tj -> ti_full_name tj = bytes_of_string "System.Void" ->
               on_vm (type_eq (mt_return (fr_method fr)) t) s = Ok false s).
  { intros t tj Ej Nj. unfold on_vm, type_eq, bind, the_type. rewrite Et, Ej, Nj. unfold ret.
    replace (set_vm s (x_vm s)) with s by now destruct s.
    destruct (bytes_eqb (ti_full_name ti) _) eqn:B; [|reflexivity]. apply bytes_eqb_spec in B. contradiction. }
  assert (Fin : (w <- try_pop ;; ret (OReturn w)) s = Ok (OReturn (Some v)) (set_operands s base)).
  { unfold bind, try_pop. rewrite O. reflexivity. }
  destruct (map_get bytes_eqb (bytes_of_string "System.Void") (c_type_map (x_vm s))) as [t|].
  - destruct MO as [(tj & Ej & Nj) _]. unfold bind at 1. rewrite (E0 t tj Ej Nj). exact Fin.
  - exact Fin.
Qed.

Lemma past_the_end f p fr s : fr_ip fr = len (fr_code fr) -> panics (step f p fr s).
Proof.
  intro E. unfold step, get_opcode, bind, code_at. rewrite E.
  assert (nth_error (fr_code fr) (N.to_nat (len (fr_code fr))) = None) as ->; [|now eexists].
  apply nth_error_None. unfold len. lia.
Qed.

Lemma assign_lengths en argument i z : List.length (e_args (assign en argument i z)) = List.length (e_args en).
Proof. destruct argument; cbn; [apply replace_nth_length|reflexivity]. Qed.
Lemma finishes_lengths p en st f : finishes p en st f ->
  match f with Goes en' | Returns _ en' => List.length (e_args en') = List.length (e_args en) | _ => True end.
Proof.
  induction 1; auto using assign_lengths; try congruence;
    try (match goal with H : no_number _ _ |- _ => destruct H as [[_ ->]|[_ ->]] end; exact I);
    destruct f; auto; congruence.
Qed.
Lemma same_entries {A} (l l' : list A) : (forall i, nth_error l i = nth_error l' i) -> l = l'.
Proof.
  revert l'. induction l as [|x l IH]; intros [|y l'] H; [reflexivity|specialize (H 0%nat); discriminate|specialize (H 0%nat); discriminate|].
  pose proof (H 0%nat) as E. injection E as ->. f_equal. apply IH. intro i. exact (H (S i)).
Qed.
Lemma host_is fr s en : env_at fr s en -> fr_params fr = CHost -> List.length (x_host s) = List.length (e_args en) ->
  x_host s = map (VInt I32) (e_args en).
Proof.
  intros [EA _] P L. rewrite P in EA. cbn [variable] in EA. apply same_entries. intro i.
  rewrite nth_error_map. destruct (nth_error (e_args en) i) as [z|] eqn:E; cbn [option_map].
  - specialize (EA (N.of_nat i) z). rewrite Nat2N.id in EA. now apply EA.
  - apply nth_error_None in E. apply nth_error_None. lia.
Qed.

(** The frame and the state in which the method starts. *)
Lemma compiled_start p s m st n args : compiled s m st n -> Forall int32 args ->
  exists fr s1, fr_params fr = CHost /\ apart (fr_params fr) (fr_locals fr) /\ fr_ip fr = 0 /\ fr_method fr = m /\ small fr /\
    stmt_code st (fr_code fr) /\ env_at fr s1 (start args n) /\ x_vm s1 = s /\ x_host s1 = map (VInt I32) args /\ x_operands s1 = [] /\
    forall fuel, execute fuel p m (map (VInt I32) args) s =
      match run fuel p fr s1 with
      | Ok (Some (VObject _)) _ => Ub "access to memory that has been freed"
      | Ok (Some v) s' => Ok (RValue v, x_host s') (x_vm s')
      | Ok None s' => Ok (RVoid, x_host s') (x_vm s')
      | Err e s' => Ok (RErr e, x_host s') (x_vm s')
      | Panic w => Panic w
      | Ub w => Ub w
      | NoFuel => NoFuel
      end.
Proof.
  intros [ST RS (b & IM & SC & SM & LN) (ti & ai & Et & Ea)] FA.
  destruct (stackalloc_run (len (b_locals b)) (set_alloc (new_machine s (map (VInt I32) args)) 0))
    as (s1 & E1 & EC & EAl & EH & EV & EHp & EO & EG).
  cbn [set_alloc new_machine x_frames k_cells x_host x_vm x_heap x_operands x_alloc] in *.
  exists (mkFrame m (ti_assembly ti) (b_code b) 0 (CFrames (k_gen (x_frames s1)) 0 (len (b_locals b))) CHost), s1.
  cbn [fr_params fr_locals fr_ip fr_method fr_code apart].
  split; [reflexivity|]. split; [exact I|]. split; [reflexivity|]. split; [reflexivity|]. split.
  { unfold small. cbn [fr_code]. change (2 ^ 32) with 4294967296 in SM. change (2 ^ 63) with 9223372036854775808. lia. }
  split; [exact SC|]. split; [|split; [exact EV|split; [exact EH|split; [exact EO|]]]].
  - split; cbn [start e_args e_locals fr_params fr_locals variable].
    + intros i z H. rewrite EH, nth_error_map, H. rewrite Forall_forall in FA. split; [|reflexivity].
      apply FA. eapply nth_error_In; eauto.
    + intros i o H. assert (L : (N.to_nat i < n)%nat).
      { assert (nth_error (repeat (@None Z) n) (N.to_nat i) <> None) as X by congruence. apply nth_error_Some in X. now rewrite repeat_length in X. }
      exists zero_cell. split.
      * split; [reflexivity|]. split; [unfold len; lia|]. rewrite EC, app_nil_l, N.add_0_l.
        rewrite (nth_error_nth' _ zero_cell) by (rewrite repeat_length; unfold len; lia). now rewrite nth_repeat.
      * intros z ->. exfalso. apply nth_error_In, repeat_spec in H. discriminate.
  - intro fuel. unfold execute. rewrite ST. cbn [negb]. unfold invoke. rewrite IM.
    unfold bind at 1. rewrite (proj2 (the_type_on_vm _ (new_machine s (map (VInt I32) args)) ti _) (conj Et eq_refl)).
    unfold bind at 1. rewrite (proj2 (the_assembly_on_vm _ (new_machine s (map (VInt I32) args)) ai _) (conj Ea eq_refl)).
    unfold in_frame, bind at 1. rewrite E1. change (len []) with 0.
    match goal with |- context [run fuel p ?fr s1] => destruct (run fuel p fr s1) as [[[| | |]|] s2|e s2|w|w|] end; reflexivity.
Qed.

(** C64: a program that has an outcome is executed with that outcome, given fuel enough. *)
Theorem C64_outcome : forall p fs paths s m st n args f,
  history p fs paths s -> compiled s m st n -> Forall int32 args ->
  finishes p (start args n) st f ->
  exists enough, forall fuel, (enough <= fuel)%nat -> observed s f (execute fuel p m (map (VInt I32) args) s).
Proof.
  intros p fs paths s m st n args f H CM FA F. destruct (history_ok _ _ _ _ H) as (W & _).
  destruct (compiled_start p s m st n args CM FA) as (fr & s1 & P & AP & I0 & FM & SM & SC & EN & EV & EH & EO & EX).
  assert (C : code_here fr (fr_code fr)) by (exists [], []; rewrite app_nil_r; auto).
  destruct (statement_ok p _ _ _ F (fr_code fr) fr s1 SC C EN AP SM) as (k & fr' & s' & R & T).
  cbn [Nat.add] in R. exists (S k). intros fuel L. rewrite EX.
  replace fuel with (k + S (fuel - S k))%nat by lia. rewrite (reach_run p _ _ _ _ _ _ R). cbn [run]. unfold bind.
  pose proof (finishes_lengths _ _ _ _ F) as LN.
  destruct f as [en|z en| |]; cbn [target observed] in *; [| | |exact I].
  - destruct T as (-> & _). unfold behind. rewrite I0.
    destruct (past_the_end (fuel - S k) p (set_ip fr (0 + len (fr_code fr))) s' eq_refl) as [w ->]. eauto.
  - destruct T as ((ip & ->) & C' & Z & EN' & K & O). rewrite EO in O.
    rewrite (ret_value (fuel - S k) p (set_ip fr ip) s' (VInt I32 z) []).
    + cbn [ret set_operands x_host x_vm]. rewrite (kp_vm _ _ K : x_vm s' = _), EV.
      pose proof (kp_host _ _ K) as KH. cbn [x_host set_operands] in KH. rewrite EH, map_length in KH.
      rewrite (host_is fr s' en EN' P); [reflexivity|]. cbn [start e_args] in LN. lia.
    + rewrite (kp_vm _ _ K : x_vm s' = _), EV. exact W.
    + exact C'.
    + rewrite (kp_vm _ _ K : x_vm s' = _), EV. cbn [fr_method set_ip]. rewrite FM. apply (cm_result _ _ _ _ CM).
    + exact O.
  - destruct (T (fuel - S k)%nat) as [w ->]. eauto.
Qed.

(** C64: conversely, whatever an execution comes to is an outcome of the program. *)
Theorem C64_only_outcomes : forall p fs paths s m st n args fuel,
  history p fs paths s -> compiled s m st n -> Forall int32 args ->
  execute fuel p m (map (VInt I32) args) s <> NoFuel ->
  exists f, finishes p (start args n) st f /\ observed s f (execute fuel p m (map (VInt I32) args) s).
Proof.
  intros p fs paths s m st n args fuel H CM FA E.
  destruct (compiled_start p s m st n args CM FA) as (fr & s1 & P & AP & I0 & FM & SM & SC & EN & EV & EH & EO & EX).
  assert (C : code_here fr (fr_code fr)) by (exists [], []; rewrite app_nil_r; auto).
  assert (R : run fuel p fr s1 <> NoFuel) by (intro R; apply E; rewrite EX, R; reflexivity).
  destruct (halting_all p fuel st (fr_code fr) fr s1 (start args n) SC C EN AP SM R) as [f F].
  exists f. split; [exact F|].
  destruct (C64_outcome p fs paths s m st n args f H CM FA F) as [enough N].
  specialize (N (Nat.max enough fuel) ltac:(lia)). rewrite EX in *.
  rewrite (run_more p fuel (Nat.max enough fuel) fr s1 _ eq_refl R) in N by lia. exact N.
Qed.

(** C64: a program without an outcome is executed for ever. *)
Theorem C64_no_outcome : forall p fs paths s m st n args fuel,
  history p fs paths s -> compiled s m st n -> Forall int32 args ->
  (forall f, ~ finishes p (start args n) st f) -> execute fuel p m (map (VInt I32) args) s = NoFuel.
Proof.
  intros p fs paths s m st n args fuel H CM FA N.
  destruct (execute fuel p m (map (VInt I32) args) s) as [x y|x y|x|x|] eqn:E; try reflexivity; exfalso;
  (destruct (C64_only_outcomes p fs paths s m st n args fuel H CM FA) as (f & F & _); [rewrite E; discriminate|exact (N f F)]).
Qed.

(** C57: a method that returns an expression returns its value, or panics where the expression traps. *)
Theorem C57_expression : forall p fs paths s m e n args,
  history p fs paths s -> compiled s m (Return e) n -> Forall int32 args ->
  exists enough, forall fuel, (enough <= fuel)%nat ->
    match eval p (start args n) e with
    | Gives z => execute fuel p m (map (VInt I32) args) s = Ok (RValue (VInt I32 z), map (VInt I32) args) s
    | Trap => exists why, execute fuel p m (map (VInt I32) args) s = Panic why
    | Unspecified => True
    end.
Proof.
  intros p fs paths s m e n args H CM FA. destruct (eval p (start args n) e) as [z| |] eqn:E.
  - apply (C64_outcome p fs paths s m (Return e) n args (Returns z (start args n)) H CM FA). now constructor.
  - apply (C64_outcome p fs paths s m (Return e) n args Traps H CM FA). apply fin_return_no. left. auto.
  - exists 0%nat. trivial.
Qed.

(** ** Examples *)

(** The method Sum of the example application, for every argument: the sum of the numbers below [n].  Its
    source is: s = 0; i = 0; while (i < n) { s = s + i; i = i + 1 }; return s. *)
Definition sum_loop : stmt := While (Rel IsLt (Var false 1) (Var true 0))
  (Seq (Assign false 0 (Binary Plus (Var false 0) (Var false 1))) (Assign false 1 (Binary Plus (Var false 1) (Number 1)))).
Definition sum_source : stmt :=
  Seq (Assign false 0 (Number 0)) (Seq (Assign false 1 (Number 0)) (Seq sum_loop (Return (Var false 0)))).

Lemma sum_compiled : compiled demo_app (app "Sum") sum_source 2.
Proof.
  constructor.
  - reflexivity.
  - eapply one_result; [vm_compute; reflexivity|discriminate].
  - eexists. split; [vm_compute; reflexivity|]. split; [|split; reflexivity].
    cbn [b_code].
    apply (code_seq _ _ [x16; x0a] _). { apply (code_assign _ _ _ [x16] [x0a]); repeat constructor. }
    apply (code_seq _ _ [x16; x0b] _). { apply (code_assign _ _ _ [x16] [x0b]); repeat constructor. }
    apply (code_seq _ _ [x2b; x08; x06; x07; x58; x0a; x07; x17; x58; x0b; x07; x02; x32; xf4] [x06; x2a]).
    + apply (code_while_test_last _ _ [x07; x02; x32] 1 [xf4] [x06; x07; x58; x0a; x07; x17; x58; x0b] x2b 1 [x08]); try reflexivity.
      * constructor.
      * apply (code_seq _ _ [x06; x07; x58; x0a] [x07; x17; x58; x0b]).
        -- apply (code_assign _ _ _ [x06; x07; x58] [x0a]); [|constructor].
           apply (code_binary Plus _ _ [x06] [x07] [x58]); repeat constructor.
        -- apply (code_assign _ _ _ [x07; x17; x58] [x0b]); [|constructor].
           apply (code_binary Plus _ _ [x07] [x17] [x58]); repeat constructor.
      * apply (branch_rel IsLt _ _ [x07] [x02] x32 1 (fun c => c = Lt)); try (repeat constructor; fail).
        intros []; cbn; split; congruence.
    + apply (code_return _ [x06]). repeat constructor.
  - eexists _, _. split; vm_compute; reflexivity.
Qed.

(** The sum of the numbers below [i]. *)
Lemma sum_loop_finishes p n d : (0 <= n <= 65536)%Z -> forall i, (0 <= i <= n)%Z -> d = Z.to_nat (n - i) ->
  finishes p (mkEnv [n] [Some (i * (i - 1) / 2)%Z; Some i]) sum_loop (Goes (mkEnv [n] [Some (n * (n - 1) / 2)%Z; Some n])).
Proof.
  intro N. induction d as [|d IH]; intros i I D.
  - assert (i = n) by lia. subst i. apply fin_while_end.
    change (truth (related IsLt (n ?= n)%Z) = Gives 0). now rewrite Z.compare_refl.
  - assert (L : (i < n)%Z) by lia.
    assert (E : (i * (i - 1) / 2 + i = (i + 1) * (i + 1 - 1) / 2)%Z).
    { replace ((i + 1) * (i + 1 - 1))%Z with (i * (i - 1) + i * 2)%Z by lia. rewrite Z.div_add by lia. reflexivity. }
    assert (B : (0 <= (i + 1) * (i + 1 - 1) / 2 <= 2147483647)%Z).
    { split; [apply Z.div_pos; nia|]. apply Z.lt_succ_r, Z.div_lt_upper_bound; nia. }
    eapply (fin_while p _ _ _ 1%Z (mkEnv [n] [Some ((i + 1) * (i + 1 - 1) / 2)%Z; Some (i + 1)%Z])).
    + change (truth (related IsLt (i ?= n)%Z) = Gives 1). change (i < n)%Z with ((i ?= n) = Lt)%Z in L. rewrite L. reflexivity.
    + discriminate.
    + eapply (fin_seq p _ _ _ (mkEnv [n] [Some ((i + 1) * (i + 1 - 1) / 2)%Z; Some i])).
      * apply (fin_assign p (mkEnv [n] [Some (i * (i - 1) / 2)%Z; Some i]) false 0 (Binary Plus (Var false 0) (Var false 1))); [|reflexivity].
        change (reduce p (i * (i - 1) / 2 + i) = Gives ((i + 1) * (i + 1 - 1) / 2)%Z). unfold reduce. rewrite E. now rewrite (proj2 (is_int32_spec _)) by (unfold int32; lia).
      * apply (fin_assign p (mkEnv [n] [Some ((i + 1) * (i + 1 - 1) / 2)%Z; Some i]) false 1 (Binary Plus (Var false 1) (Number 1))); [|reflexivity].
        change (reduce p (i + 1) = Gives (i + 1)%Z). unfold reduce. now rewrite (proj2 (is_int32_spec _)) by (unfold int32; lia).
    + apply IH; lia.
Qed.

Example C64_sum p n : (0 <= n <= 65536)%Z ->
  exists enough, forall fuel, (enough <= fuel)%nat ->
    execute fuel p (app "Sum") [VInt I32 n] demo_app = Ok (RValue (VInt I32 (n * (n - 1) / 2)), [VInt I32 n]) demo_app.
Proof.
  intro N. pose proof (demo_app_history p) as H.
  refine (C64_outcome p _ _ demo_app (app "Sum") sum_source 2 [n] (Returns (n * (n - 1) / 2) (mkEnv [n] [Some (n * (n - 1) / 2)%Z; Some n]))
    H sum_compiled _ _).
  - constructor; [unfold int32; lia|constructor].
  - eapply fin_seq; [apply (fin_assign p (start [n] 2) false 0 (Number 0) 0); reflexivity|].
    eapply fin_seq; [apply (fin_assign p (mkEnv [n] [Some 0%Z; None]) false 1 (Number 0) 0); reflexivity|].
    eapply fin_seq; [apply (sum_loop_finishes p n (Z.to_nat n)  N 0); lia|].
    apply fin_return. reflexivity.
Qed.

(** The method Add of the example application, for all arguments. *)
Definition add_source : expr := Binary Plus (Var true 0) (Var true 1).
Lemma add_compiled : compiled demo_app (app "Add") (Return add_source) 0.
Proof.
  constructor.
  - reflexivity.
  - eapply one_result; [vm_compute; reflexivity|discriminate].
  - eexists. split; [vm_compute; reflexivity|]. split; [|split; reflexivity]. cbn [b_code].
    apply (code_return _ [x02; x03; x58]). apply (code_binary Plus _ _ [x02] [x03] [x58]); repeat constructor.
  - eexists _, _. split; vm_compute; reflexivity.
Qed.
Example C57_add p a b : int32 a -> int32 b ->
  exists enough, forall fuel, (enough <= fuel)%nat ->
    match reduce p (a + b) with
    | Gives z => execute fuel p (app "Add") [VInt I32 a; VInt I32 b] demo_app = Ok (RValue (VInt I32 z), [VInt I32 a; VInt I32 b]) demo_app
    | Trap => exists why, execute fuel p (app "Add") [VInt I32 a; VInt I32 b] demo_app = Panic why
    | Unspecified => True
    end.
Proof.
  intros A B. exact (C57_expression p _ _ demo_app (app "Add") add_source 0 [a; b] (demo_app_history p) add_compiled
    (Forall_cons a A (Forall_cons b B (Forall_nil int32)))).
Qed.

(** while (1) ; in a method of the example application. *)
Definition spin : stmt := While (Nonzero (Number 1)) Skip.
Definition spin_method : method_info :=
  let m := app "Add" in
  mkMethod (mt_name m) (mt_declaring m) (mt_return m) (mt_params m)
    (match mt_impl m with
     | IIL b => IIL (mkBody [x17; x2c; x02; x2b; xfb] (b_max_stack b) (b_locals b) (b_init_locals b) (b_clauses b))
     | i => i
     end) true false false.
Lemma spin_compiled : compiled demo_app spin_method spin 0.
Proof.
  constructor.
  - reflexivity.
  - eapply one_result; [vm_compute; reflexivity|discriminate].
  - eexists. split; [vm_compute; reflexivity|]. split; [|split; reflexivity]. cbn [b_code].
    apply (code_while _ _ [x17; x2c] 1 [x02] [] x2b 1 [xfb]); try reflexivity; try constructor.
    apply (branch_nonzero (Number 1) [x17] x2c 1 true); repeat constructor.
  - eexists _, _. split; vm_compute; reflexivity.
Qed.
Lemma spin_no_outcome p en f : ~ finishes p en spin f.
Proof.
  unfold spin. intro H. remember (While (Nonzero (Number 1)) Skip) as st eqn:E.
  induction H as [| | | | | | | |en c a EC|en c a z en1 f EC NZ Ha _ Hw IH|en c a z f EC NZ Ha _ S|en c a f NN| |]; try discriminate E;
    injection E as -> ->.
  - discriminate EC.
  - now apply IH.
  - inversion Ha; subst. exact S.
  - destruct NN as [[NN _]|[NN _]]; discriminate NN.
Qed.
Example C64_spin p fuel : execute fuel p spin_method [] demo_app = NoFuel.
Proof.
  exact (C64_no_outcome p _ _ demo_app spin_method spin 0 [] fuel (demo_app_history p) spin_compiled (Forall_nil _) (spin_no_outcome p _)).
Qed.

Print Assumptions C57_expression.
Print Assumptions C64_outcome.
Print Assumptions C64_only_outcomes.
Print Assumptions C64_no_outcome.

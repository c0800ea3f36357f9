(** Compiled programs whose functions call each other and print compute what their source says: C67. *)
From Coq Require Import NArith ZArith String List Bool Lia.
From Coq.Strings Require Import Byte.
From Verif Require Import Base BaseFacts Metadata Utf SpecUtf Runtime Value Opcodes Gc Interp SpecExec SpecFrames SpecStack SpecRuntime SpecHistory
  SpecTypes SpecHeap SpecLang InterpFacts RuntimeInv FrameFacts TraceFacts StackFacts HistoryProofs LangFacts LangProofs PathFacts DemoStates DemoRuns
  PropsValue PropsLang SpecCalls CallLangFacts CallLangProofs.
Import ListNotations.
Open Scope N_scope.

(** What an execution by the host must be if the body of the function ends with [r]: the host gets the
    result, finds in its arguments what was last assigned to them, and the output has grown by the text
    of the prints in the order of their execution.  Nothing else of the runtime has changed. *)
Definition observes (s : vm) (r : outcome progress) (e : res vm (run_result * list value)) : Prop :=
  match r with
  | Normal (Back o en) w =>
      e = Ok (match o with Some z => RValue (VInt I32 z) | None => RVoid end, map (VInt I32) (e_args en))
             (set_output s (c_output s ++ w_text w))
  | Normal (Onward _) _ | Panics => exists why, e = Panic why
  | Unlaid => True
  end.

(** ** Proofs *)

Lemma does_lengths p P limit w en c r : does p P limit w en c r ->
  match r with Normal (Onward en') _ | Normal (Back _ en') _ => List.length (e_args en') = List.length (e_args en) | _ => True end.
Proof.
  assert (AB : forall A (q : outcome A) (r : outcome progress), abrupt q r ->
    match r with Normal (Onward en') _ | Normal (Back _ en') _ => List.length (e_args en') = List.length (e_args en) | _ => True end).
  { intros A q r' [[_ ->]|[_ ->]]; exact I. }
  clear AB. induction 1; auto using assign_lengths;
    try (match goal with H : abrupt _ _ |- _ => destruct H as [[_ ->]|[_ ->]] end; exact I);
    destruct r as [[?|? ?] ?| |]; auto; congruence.
Qed.

Lemma function_start p s P ms g f m args : compiled_program s P ms -> nth_error P g = Some f -> nth_error ms g = Some m ->
  Forall int32 args ->
  exists fr s1, fr_params fr = CHost /\ x_host s1 = map (VInt I32) args /\
    started s P ms (storage (N.of_nat (fn_locals f))) (k_gen (x_frames s1)) f args (outset f) [] fr s1 /\
    forall fuel, execute fuel p m (map (VInt I32) args) s =
      match run fuel p fr s1 with
      | Ok (Some (VObject _)) _ => Ub "access to memory that has been freed"
      | Ok (Some v) s' => Ok (RValue v, x_host s') (x_vm s')
      | Ok None s' => Ok (RVoid, x_host s') (x_vm s')
      | Err e s' => Ok (RErr e, x_host s') (x_vm s')
      | Panic w => Panic w
      | Ub w => Ub w
      | NoFuel => NoFuel
      end.
Proof.
  intros CP EF Em FA. destruct (forall2_nth _ _ _ _ _ CP EF) as (m' & Em' & [ST PR RS (ti & ai & b & Et & Ea & IM & LN & SM & SC)]).
  assert (m' = m) as -> by congruence. clear Em'.
  destruct (stackalloc_run (len (b_locals b)) (set_alloc (new_machine s (map (VInt I32) args)) 0))
    as (s1 & E1 & EC & EAl & EH & EV & EHp & EO & EG).
  cbn [set_alloc new_machine x_frames k_cells k_cap k_gen x_host x_vm x_heap x_operands x_alloc] in *.
  exists (mkFrame m (ti_assembly ti) (b_code b) 0 (CFrames (k_gen (x_frames s1)) 0 (len (b_locals b))) CHost), s1.
  split; [reflexivity|]. split; [exact EH|]. split.
  - constructor; cbn [fr_params fr_locals fr_ip fr_method fr_code fr_assembly apart].
    + reflexivity.
    + unfold small. cbn [fr_code]. change (2 ^ 32) with 4294967296 in SM. change (2 ^ 63) with 9223372036854775808. lia.
    + exact I.
    + exact SC.
    + split; cbn [start e_args e_locals fr_params fr_locals variable].
      * intros i z H. rewrite EH, nth_error_map, H. rewrite Forall_forall in FA. split; [|reflexivity].
        apply FA. eapply nth_error_In; eauto.
      * intros i o H. assert (L : (N.to_nat i < fn_locals f)%nat).
        { assert (nth_error (repeat (@None Z) (fn_locals f)) (N.to_nat i) <> None) as X by congruence. apply nth_error_Some in X. now rewrite repeat_length in X. }
        exists zero_cell. split.
        -- split; [reflexivity|]. split; [unfold len; lia|]. rewrite EC, app_nil_l, N.add_0_l.
           rewrite (nth_error_nth' _ zero_cell) by (rewrite repeat_length; unfold len; lia). now rewrite nth_repeat.
        -- intros z ->. exfalso. apply nth_error_In, repeat_spec in H. discriminate.
    + assert (LB : len (b_locals b) = N.of_nat (fn_locals f)) by (unfold len; lia).
      constructor; unfold outset, in_use, room, modest, memory; cbn [w_text w_cells w_bytes].
      * rewrite EV, app_nil_r. now destruct s.
      * rewrite EC, app_nil_l, len_repeat. lia.
      * rewrite LB in EG. change (len []) with 0 in EG. rewrite N.add_0_l in EG. unfold storage.
        destruct (N.ltb_spec 64 (N.of_nat (fn_locals f))) as [X|X]; destruct EG as [_ ->].
        -- destruct (N.leb_spec (N.of_nat (fn_locals f)) 64); [lia|]. lia.
        -- destruct (N.leb_spec (N.of_nat (fn_locals f)) 64); lia.
      * reflexivity.
      * rewrite EHp. reflexivity.
      * rewrite EHp. cbn. lia.
    + exact RS.
    + exact EO.
  - intro fuel. unfold execute. rewrite ST. cbn [negb]. unfold invoke. rewrite IM.
    unfold bind at 1. rewrite (proj2 (the_type_on_vm _ (new_machine s (map (VInt I32) args)) ti _) (conj Et eq_refl)).
    unfold bind at 1. rewrite (proj2 (the_assembly_on_vm _ (new_machine s (map (VInt I32) args)) ai _) (conj Ea eq_refl)).
    unfold in_frame, bind at 1. rewrite E1. change (len []) with 0.
    match goal with |- context [run fuel p ?fr s1] => destruct (run fuel p fr s1) as [[[| | |]|] s2|e s2|w|w|] end; reflexivity.
Qed.

Lemma abrupt_one {A B} (q : outcome A) (r r' : outcome B) : abrupt q r -> abrupt q r' -> r' = r.
Proof. intros [[-> ->]|[-> ->]] [[E ->]|[E ->]]; congruence. Qed.
Lemma abrupt_normal {A B} a w (r : outcome B) : abrupt (@Normal A a w) r -> False.
Proof. intros [[E _]|[E _]]; discriminate. Qed.
Ltac use IH H := let E := fresh "E" in pose proof (IH _ H) as E; clear H; first [discriminate E|injection E; clear E; intros; subst|subst|idtac].
Ltac same :=
  repeat match goal with
  | IH : (forall r, evals _ _ _ ?w ?en ?e r -> r = _), H : evals _ _ _ ?w ?en ?e _ |- _ => use IH H
  | IH : (forall r, evals_all _ _ _ ?w ?en ?e r -> r = _), H : evals_all _ _ _ ?w ?en ?e _ |- _ => use IH H
  | IH : (forall r, applies _ _ _ ?w ?en ?e r -> r = _), H : applies _ _ _ ?w ?en ?e _ |- _ => use IH H
  | IH : (forall r, tests _ _ _ ?w ?en ?e r -> r = _), H : tests _ _ _ ?w ?en ?e _ |- _ => use IH H
  | IH : (forall r, does _ _ _ ?w ?en ?e r -> r = _), H : does _ _ _ ?w ?en ?e _ |- _ => use IH H
  | H : abrupt (Normal _ _) _ |- _ => destruct (abrupt_normal _ _ _ H)
  | H : abrupt ?q ?r, H' : abrupt ?q ?r' |- ?r' = ?r => exact (abrupt_one _ _ _ H H')
  | H : nth_error ?P ?g = Some _, H' : nth_error ?P ?g = Some _ |- _ => rewrite H in H'; injection H' as <-
  end; try congruence; try contradiction; auto.
Lemma one_meaning p P limit :
    (forall w en e r, evals p P limit w en e r -> forall r', evals p P limit w en e r' -> r' = r) /\
    (forall w en es r, evals_all p P limit w en es r -> forall r', evals_all p P limit w en es r' -> r' = r) /\
    (forall w g zs r, applies p P limit w g zs r -> forall r', applies p P limit w g zs r' -> r' = r) /\
    (forall w en c r, tests p P limit w en c r -> forall r', tests p P limit w en c r' -> r' = r) /\
    (forall w en c r, does p P limit w en c r -> forall r', does p P limit w en c r' -> r' = r).
Proof.
  apply meaning_ind; intros;
  match goal with H : _ ?r' |- ?r' = _ => inversion H; subst; clear H; same end.
Qed.

(** C67: a function has one outcome at most. *)
Theorem C67_one_outcome : forall p P limit w en c r r',
  does p P limit w en c r -> does p P limit w en c r' -> r' = r.
Proof. intros p P limit w en c r r' H. exact (proj2 (proj2 (proj2 (proj2 (one_meaning p P limit)))) w en c r H r'). Qed.

(** C67: a function that has an outcome is executed with that outcome, given fuel enough. *)
Theorem C67_outcome : forall p fs paths s P ms g f m args r,
  history p fs paths s -> compiled_program s P ms -> nth_error P g = Some f -> nth_error ms g = Some m -> Forall int32 args ->
  does p P (storage (N.of_nat (fn_locals f))) (outset f) (start args (fn_locals f)) (fn_body f) r ->
  exists enough, forall fuel, (enough <= fuel)%nat -> observes s r (execute fuel p m (map (VInt I32) args) s).
Proof.
  intros p fs paths s P ms g f m args r H CP EF Em FA D. destruct (history_ok _ _ _ _ H) as (W & _).
  destruct (function_start p s P ms g f m args CP EF Em FA) as (fr & s1 & HP & HH & SD & EX).
  set (limit := storage _) in *. set (G := k_gen _) in *.
  pose proof (proj2 (proj2 (proj2 (proj2 (meaning_ok p s P ms limit G W CP)))) _ _ _ _ D (fn_result f) (fr_code fr) fr s1
    (sd_code _ _ _ _ _ _ _ _ _ _ _ SD) (sd_here _ _ _ _ _ _ _ _ _ _ _ SD) (sd_env _ _ _ _ _ _ _ _ _ _ _ SD)
    (sd_world _ _ _ _ _ _ _ _ _ _ _ SD) (sd_apart _ _ _ _ _ _ _ _ _ _ _ SD) (sd_small _ _ _ _ _ _ _ _ _ _ _ SD)) as L.
  rewrite (sd_operands _ _ _ _ _ _ _ _ _ _ _ SD) in L.
  pose proof (does_lengths _ _ _ _ _ _ _ D) as LN.
  assert (DIE : dies p fr s1 -> exists enough, forall fuel, (enough <= fuel)%nat -> exists why, execute fuel p m (map (VInt I32) args) s = Panic why).
  { intros [K DI]. exists K. intros fuel Lf. rewrite EX. destruct (DI fuel Lf) as [why ->]. eauto. }
  destruct r as [[en|o en] w| |]; cbn [observes]; [| | |exists 0%nat; trivial].
  - apply DIE. eapply body_falls; eauto.
  - destruct (body_returns p s P ms limit G W f args (outset f) [] fr s1 o en w SD L) as (K & s' & RUN & AW & AN & _ & EN).
    exists K. intros fuel Lf. rewrite EX, (RUN fuel Lf).
    pose proof (run_advances p K fr s1) as AD. rewrite (RUN K (le_n K)) in AD.
    assert (HO : x_host s' = map (VInt I32) (e_args en)).
    { apply (host_is fr s' en EN HP). pose proof (ad_hosts _ _ _ AD) as Q. rewrite HH in Q. unfold len in Q. rewrite map_length in Q.
      cbn [start e_args] in LN. lia. }
    rewrite HO, (aw_vm _ _ _ _ _ AW). destruct o; reflexivity.
  - now apply DIE.
Qed.

(** C67: conversely, whatever an execution comes to is an outcome of the function. *)
Theorem C67_only_outcomes : forall p fs paths s P ms g f m args fuel,
  history p fs paths s -> compiled_program s P ms -> nth_error P g = Some f -> nth_error ms g = Some m -> Forall int32 args ->
  execute fuel p m (map (VInt I32) args) s <> NoFuel ->
  exists r, does p P (storage (N.of_nat (fn_locals f))) (outset f) (start args (fn_locals f)) (fn_body f) r /\
    observes s r (execute fuel p m (map (VInt I32) args) s).
Proof.
  intros p fs paths s P ms g f m args fuel H CP EF Em FA E. destruct (history_ok _ _ _ _ H) as (W & _).
  destruct (function_start p s P ms g f m args CP EF Em FA) as (fr & s1 & HP & HH & SD & EX).
  assert (R : run fuel p fr s1 <> NoFuel) by (intro R; apply E; rewrite EX, R; reflexivity).
  destruct (com_halts p s P ms _ _ W CP fuel (fn_body f) (fn_result f) (fr_code fr) fr s1 (outset f) (start args (fn_locals f))
    (sd_code _ _ _ _ _ _ _ _ _ _ _ SD) (sd_here _ _ _ _ _ _ _ _ _ _ _ SD) (sd_env _ _ _ _ _ _ _ _ _ _ _ SD)
    (sd_world _ _ _ _ _ _ _ _ _ _ _ SD) (sd_apart _ _ _ _ _ _ _ _ _ _ _ SD) (sd_small _ _ _ _ _ _ _ _ _ _ _ SD) R) as [r D].
  exists r. split; [exact D|].
  destruct (C67_outcome p fs paths s P ms g f m args r H CP EF Em FA D) as [enough N].
  specialize (N (Nat.max enough fuel) ltac:(lia)). rewrite EX in *.
  rewrite (run_more p fuel (Nat.max enough fuel) fr s1 _ eq_refl R) in N by lia. exact N.
Qed.

(** C67: a function without an outcome is executed for ever. *)
Theorem C67_no_outcome : forall p fs paths s P ms g f m args fuel,
  history p fs paths s -> compiled_program s P ms -> nth_error P g = Some f -> nth_error ms g = Some m -> Forall int32 args ->
  (forall r, ~ does p P (storage (N.of_nat (fn_locals f))) (outset f) (start args (fn_locals f)) (fn_body f) r) ->
  execute fuel p m (map (VInt I32) args) s = NoFuel.
Proof.
  intros p fs paths s P ms g f m args fuel H CP EF Em FA N.
  destruct (execute fuel p m (map (VInt I32) args) s) as [x y|x y|x|x|] eqn:E; try reflexivity; exfalso;
  (destruct (C67_only_outcomes p fs paths s P ms g f m args fuel H CP EF Em FA) as (r & D & _); [rewrite E; discriminate|exact (N r D)]).
Qed.

(** ** Examples *)

(** The method Deep of the second example application, for every argument up to 64:
    if (!n) return 0; return Deep(n - 1) + n. *)
Definition deep : function := mkFunction 1 0 true
  (CSeq (CIf (TNot (TNonzero (XVar true 0))) (CReturn (Some (XNumber 0))) CSkip)
        (CReturn (Some (XBinary Plus (XCall 0 (XMore (XBinary Minus (XVar true 0) (XNumber 1)) XNone)) (XVar true 0))))).

Lemma deep_compiled : compiled_program demo_lab [deep] [lab "Deep"].
Proof.
  constructor; [|constructor]. constructor.
  - reflexivity.
  - reflexivity.
  - eapply one_result; [vm_compute; reflexivity|discriminate].
  - eexists _, _, _. split; [vm_compute; reflexivity|]. split; [vm_compute; reflexivity|]. split; [vm_compute; reflexivity|].
    split; [reflexivity|]. split; [reflexivity|]. cbn [b_code ti_assembly fn_result fn_body deep].
    apply (cc_seq _ _ _ _ _ [x02; x2d; x02; x16; x2a] [x02; x17; x59; x28; x09; x00; x00; x06; x02; x58; x2a]).
    + apply (cc_if_then _ _ _ _ _ [x02; x2d] 1 [x02] [x16; x2a]); try reflexivity.
      * apply tc_not. apply (tc_nonzero _ _ _ [x02] x2d 1 false); repeat constructor.
      * apply (cc_return _ _ _ _ [x16]); repeat constructor.
    + apply (cc_return _ _ _ _ [x02; x17; x59; x28; x09; x00; x00; x06; x02; x58]); [reflexivity|].
      apply (xc_binary _ _ Plus _ _ [x02; x17; x59; x28; x09; x00; x00; x06] [x02] [x58]); [constructor| |repeat constructor].
      apply (xc_call _ _ 0 deep _ [x02; x17; x59] [x09; x00; x00; x06]); try reflexivity.
      * apply (xc_more _ _ _ _ [x02; x17; x59] []); [|constructor].
        apply (xc_binary _ _ Minus _ _ [x02] [x17] [x59]); repeat constructor.
      * split; [reflexivity|]. exists (lab "Deep"). split; [reflexivity|].
        eexists _, 8. split; [vm_compute; reflexivity|]. split; [reflexivity|]. left. split; vm_compute; reflexivity.
Qed.

Lemma deep_does p n : (Z.of_nat n <= 64)%Z -> forall w, w_cells w + N.of_nat n <= 64 ->
  exists w', does p [deep] 64 w (start [Z.of_nat n] 0) (fn_body deep)
    (Normal (Back (Some (Z.of_nat n * (Z.of_nat n + 1) / 2)%Z) (start [Z.of_nat n] 0)) w') /\ w_text w' = w_text w.
Proof.
  induction n as [|n IH]; intros L w C.
  - exists w. split; [|reflexivity]. apply do_seq_back.
    eapply (do_if _ _ _ _ _ _ _ _ true w).
    + apply (te_not _ _ _ w (start [0%Z] 0) (TNonzero (XVar true 0)) false).
      apply (te_nonzero _ _ _ w (start [0%Z] 0) (XVar true 0) 0%Z). apply ev_var.
    + apply do_return. apply ev_number.
  - set (z := Z.of_nat (S n)) in *.
    destruct (IH ltac:(lia) (enter w deep)) as (w' & D & T); [cbn; lia|].
    exists (leave w deep w'). split; [|cbn; rewrite T; reflexivity].
    eapply (do_seq _ _ _ _ _ _ _ (start [z] 0) w).
    + eapply (do_if _ _ _ _ _ _ _ _ false w); [|apply do_skip].
      apply (te_not _ _ _ w (start [z] 0) (TNonzero (XVar true 0)) true).
      replace true with (negb (z =? 0)%Z) at 2 by (destruct (Z.eqb_spec z 0); [lia|reflexivity]).
      apply te_nonzero. apply (ev_var p [deep] 64 w (start [z] 0) true 0).
    + apply do_return.
      assert (B : (Z.of_nat n * (Z.of_nat n + 1) / 2 + z = z * (z + 1) / 2)%Z).
      { unfold z. replace (Z.of_nat (S n) * (Z.of_nat (S n) + 1))%Z with (Z.of_nat n * (Z.of_nat n + 1) + Z.of_nat (S n) * 2)%Z by lia.
        rewrite Z.div_add by lia. reflexivity. }
      assert (I : (0 <= z * (z + 1) / 2 <= 2147483647)%Z).
      { split; [apply Z.div_pos; nia|]. apply Z.lt_succ_r, Z.div_lt_upper_bound; nia. }
      assert (R : binary_meaning p Plus (Z.of_nat n * (Z.of_nat n + 1) / 2) z = Gives (z * (z + 1) / 2)%Z).
      { cbn [binary_meaning]. unfold reduce. rewrite B. now rewrite (proj2 (is_int32_spec _)) by (unfold int32; lia). }
      replace (Normal (z * (z + 1) / 2)%Z (leave w deep w'))
        with (outcome_of (binary_meaning p Plus (Z.of_nat n * (Z.of_nat n + 1) / 2) z) (leave w deep w')) by (rewrite R; reflexivity).
      eapply ev_binary; [|apply (ev_var p [deep] 64 (leave w deep w') (start [z] 0) true 0)].
      eapply (ev_call _ _ _ _ _ _ _ [Z.of_nat n] w).
      * eapply ev_more; [|apply ev_none].
        assert (S1 : binary_meaning p Minus z 1 = Gives (Z.of_nat n)).
        { cbn [binary_meaning]. unfold reduce. replace (z - 1)%Z with (Z.of_nat n) by lia.
          now rewrite (proj2 (is_int32_spec _)) by (unfold int32; lia). }
        replace (Normal (Z.of_nat n) w) with (outcome_of (binary_meaning p Minus z 1) w) by (rewrite S1; reflexivity).
        eapply ev_binary; [apply (ev_var p [deep] 64 w (start [z] 0) true 0)|apply ev_number].
      * eapply (ap_back _ _ _ w 0 deep); [reflexivity|unfold may_enter; cbn; lia|exact D].
Qed.
Example C67_deep p n : (n <= 64)%nat ->
  exists enough, forall fuel, (enough <= fuel)%nat ->
    execute fuel p (lab "Deep") [VInt I32 (Z.of_nat n)] demo_lab =
    Ok (RValue (VInt I32 (Z.of_nat n * (Z.of_nat n + 1) / 2)), [VInt I32 (Z.of_nat n)]) demo_lab.
Proof.
  intro L. destruct (deep_does p n ltac:(lia) (outset deep)) as (w' & D & T); [cbn; lia|].
  destruct (C67_outcome p _ _ demo_lab [deep] [lab "Deep"] 0 deep (lab "Deep") [Z.of_nat n] _ (demo_lab_history p) deep_compiled
    eq_refl eq_refl (Forall_cons _ (ltac:(unfold int32; lia) : int32 (Z.of_nat n)) (Forall_nil _)) D) as [K H].
  exists K. intros fuel Lf. specialize (H fuel Lf). cbn [observes] in H. rewrite T in H. cbn [outset w_text] in H.
  rewrite app_nil_r in H. exact H.
Qed.

(** The method Main of the first example application: print "hi"; return. *)
Definition main : function := mkFunction 0 0 false (CSeq (CPrint [104; 105]) (CReturn None)).
Lemma main_compiled : compiled_program demo_app [main] [app "Main"].
Proof.
  constructor; [|constructor]. constructor.
  - reflexivity.
  - reflexivity.
  - eapply no_result; vm_compute; reflexivity.
  - eexists _, _, _. split; [vm_compute; reflexivity|]. split; [vm_compute; reflexivity|]. split; [vm_compute; reflexivity|].
    split; [reflexivity|]. split; [reflexivity|]. cbn [b_code ti_assembly fn_result fn_body main].
    apply (cc_seq _ _ _ _ _ [x72; x01; x00; x00; x70; x28; x01; x00; x00; x0a] [x2a]); [|now constructor].
    apply (cc_print _ _ _ _ [x01; x00; x00; x70] [x01; x00; x00; x0a]).
    + split; [reflexivity|]. split; [repeat constructor; unfold scalar; lia|]. split.
      * eexists _, [x00], x00, [x00]. split; [vm_compute; reflexivity|]. split; [reflexivity|]. split; [reflexivity|].
        split; [repeat constructor|]. split; [reflexivity|]. split; reflexivity.
      * assert (Q : exists ti, nth_error (c_types demo_app) 16 = Some ti /\ ti_full_name ti = bytes_of_string "System.String")
          by (eexists; split; vm_compute; reflexivity).
        destruct Q as (ti & Q & N). exists ti. split; [eapply nth_error_In; exact Q|exact N].
    + split; [reflexivity|]. eexists. split; [|split].
      * eexists _, 0. split; [vm_compute; reflexivity|]. split; [reflexivity|]. right. split; vm_compute; reflexivity.
      * reflexivity.
      * reflexivity.
Qed.
Example C67_hello p : exists enough, forall fuel, (enough <= fuel)%nat ->
  execute fuel p (app "Main") [] demo_app = Ok (RVoid, []) (set_output demo_app (c_output demo_app ++ [104; 105])).
Proof.
  refine (C67_outcome p _ _ demo_app [main] [app "Main"] 0 main (app "Main") [] (Normal (Back None (start [] 0)) (after_print (outset main) [104; 105]))
    (demo_app_history p) main_compiled eq_refl eq_refl (Forall_nil _) _).
  eapply do_seq; [apply do_print; split; vm_compute; [discriminate|reflexivity]|apply do_return_none].
Qed.

(** while (1) ; in a method of the first example application. *)
Definition stuck : function := mkFunction 2 0 true (CWhile (TNonzero (XNumber 1)) CSkip).
Lemma stuck_compiled : compiled_program demo_app [stuck] [spin_method].
Proof.
  constructor; [|constructor]. constructor.
  - reflexivity.
  - reflexivity.
  - eapply one_result; [vm_compute; reflexivity|discriminate].
  - eexists _, _, _. split; [vm_compute; reflexivity|]. split; [vm_compute; reflexivity|]. split; [vm_compute; reflexivity|].
    split; [reflexivity|]. split; [reflexivity|]. cbn [b_code ti_assembly fn_result fn_body stuck].
    apply (cc_while _ _ _ _ _ [x17; x2c] 1 [x02] [] x2b 1 [xfb]); try reflexivity; try constructor.
    apply (tc_nonzero _ _ _ [x17] x2c 1 true); repeat constructor.
Qed.
Lemma stuck_no_outcome p P limit w en r : ~ does p P limit w en (fn_body stuck) r.
Proof.
  cbn [fn_body stuck]. intro H. remember (CWhile (TNonzero (XNumber 1)) CSkip) as c eqn:E.
  assert (T : forall w q, tests p P limit w en (TNonzero (XNumber 1)) q -> q = Normal true w).
  { intros w0 q X. inversion X as [? ? ? z w' Y|? ? ? q0 ? Y AB| | | | |]; subst.
    - inversion Y; subst. reflexivity.
    - inversion Y; subst. destruct AB as [[AB _]|[AB _]]; discriminate AB. }
  induction H as [| | | | | | | | |w en c a w1 TE|w en c a w1 en2 w2 r TE Ha _ Hw IH|w en c a w1 o en2 w2 TE Ha _|w en c a w1 q r TE Ha _ AB|w en c a q r TE AB| | | | | | | | | |];
    try discriminate E; injection E as -> ->.
  - apply T in TE. discriminate TE.
  - inversion Ha; subst. apply IH; auto.
  - inversion Ha.
  - inversion Ha; subst. destruct AB as [[AB _]|[AB _]]; discriminate AB.
  - apply T in TE. subst q. destruct AB as [[AB _]|[AB _]]; discriminate AB.
Qed.
Example C67_stuck p fuel : execute fuel p spin_method [VInt I32 1; VInt I32 2] demo_app = NoFuel.
Proof.
  refine (C67_no_outcome p _ _ demo_app [stuck] [spin_method] 0 stuck spin_method [1; 2]%Z fuel (demo_app_history p) stuck_compiled eq_refl eq_refl _ _).
  - repeat constructor; unfold int32; lia.
  - intro r. apply stuck_no_outcome.
Qed.

Print Assumptions C67_one_outcome.
Print Assumptions C67_outcome.
Print Assumptions C67_only_outcomes.
Print Assumptions C67_no_outcome.

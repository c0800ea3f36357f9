(** The interpreter does what compiled programs of SpecCalls say. *)
From Coq Require Import NArith ZArith String List Bool Lia Wf_nat.
From Coq.Strings Require Import Byte.
From Verif Require Import Base BaseFacts Metadata Utf SpecUtf Runtime Value Opcodes Gc Interp SpecBytes SpecExec SpecFrames SpecStack SpecRuntime
  SpecTypes SpecHeap SpecLang InterpFacts InterpInv RuntimeInv FrameFacts TraceFacts VmFacts CallFacts StackFacts LangFacts LangProofs PathFacts
  PropsValue PropsCompare PropsDecode PropsHeap PropsLang SpecCalls CallLangFacts.
Import ListNotations.
Open Scope N_scope.

Scheme exp_mut := Induction for exp Sort Prop with exps_mut := Induction for exps Sort Prop.
Combined Scheme exp_exps_ind from exp_mut, exps_mut.

Section Calls.
  Variables (p : profile) (V : vm) (P : list function) (ms : list method_info) (limit : N) (G : nat).
  Hypothesis W : consistent p V.
  Hypothesis CP : compiled_program V P ms.
  Let at_world := at_world V limit G.

  (** Where code leads that starts in [fr] and [s], in [m] instructions or more: [K] is what is known
      of the end. *)
  Definition leads {A} (m : nat) (fr : frame) (s : machine) (r : outcome A) (K : A -> frame -> machine -> Prop) : Prop :=
    match r with
    | Normal a w => exists k fr' s', path p k fr s fr' s' /\ (m <= k)%nat /\ at_world s' w /\ K a fr' s'
    | Panics => dies p fr s
    | Unlaid => True
    end.
  Lemma leads_abrupt {A B} m m' fr s (r : outcome A) (r' : outcome B) K K' : leads m fr s r K -> abrupt r r' -> leads m' fr s r' K'.
  Proof. intros H [[-> ->]|[-> ->]]; [exact H|exact I]. Qed.
  Lemma leads_from {A} k m m' fr s fr1 s1 (r : outcome A) K : path p k fr s fr1 s1 -> (m <= k + m')%nat ->
    leads m' fr1 s1 r K -> leads m fr s r K.
  Proof.
    intros R L. destruct r as [a w| |]; cbn [leads]; [|intro H; eapply dies_path; eauto|trivial].
    intros (k' & fr' & s' & R' & L' & H). exists (k + k')%nat, fr', s'. split; [eapply path_trans; eauto|]. split; [lia|exact H].
  Qed.
  Lemma leads_weaken {A} m m' fr s (r : outcome A) (K K' : A -> frame -> machine -> Prop) :
    leads m' fr s r K -> (m <= m')%nat -> (forall a fr' s', K a fr' s' -> K' a fr' s') -> leads m fr s r K'.
  Proof.
    destruct r as [a w| |]; cbn [leads]; auto. intros (k & fr' & s' & R & L & A' & H) L' I'. exists k, fr', s'.
    split; [exact R|]. split; [lia|]. auto.
  Qed.

  (** The end of an expression, of a list of arguments, of a call, of a condition and of a command. *)
  Definition value_at (fr : frame) (n : N) (en : env) (l : list value) (z : Z) (fr' : frame) (s' : machine) : Prop :=
    int32 z /\ fr' = set_ip fr (fr_ip fr + n) /\ env_at fr s' en /\ x_operands s' = VInt I32 z :: l.
  Definition values_at (fr : frame) (n : N) (en : env) (l : list value) (zs : list Z) (fr' : frame) (s' : machine) : Prop :=
    Forall int32 zs /\ fr' = set_ip fr (fr_ip fr + n) /\ env_at fr s' en /\ x_operands s' = rev (map (VInt I32) zs) ++ l.
  Definition result_at (fr : frame) (f : function) (en : env) (l : list value) (o : option Z) (fr' : frame) (s' : machine) : Prop :=
    answers (fn_result f) o /\ fr' = set_ip fr (fr_ip fr + 5) /\ env_at fr s' en /\ x_operands s' = then_push l (as_value o).
  Definition chosen (fr : frame) (yes no : N) (want : bool) (en : env) (l : list value) (b : bool) (fr' : frame) (s' : machine) : Prop :=
    fr' = set_ip fr (if Bool.eqb b want then yes else no) /\ env_at fr s' en /\ x_operands s' = l.
  Definition arrives (fr : frame) (has : bool) (e : N) (l : list value) (g : progress) (fr' : frame) (s' : machine) : Prop :=
    match g with
    | Onward en => fr' = set_ip fr e /\ env_at fr s' en /\ x_operands s' = l
    | Back o en => (exists ip, fr' = set_ip fr ip) /\ code_here fr' [x2a] /\ answers has o /\ env_at fr s' en /\
        x_operands s' = then_push l (as_value o)
    end.

  Definition evals_ok (w : world) (en : env) (e : exp) (r : outcome Z) : Prop :=
    forall bs fr s, exp_code P (resolved V ms (fr_assembly fr)) e bs -> code_here fr bs -> env_at fr s en -> at_world s w ->
      leads 1 fr s r (value_at fr (len bs) en (x_operands s)).
  Definition evals_all_ok (w : world) (en : env) (es : exps) (r : outcome (list Z)) : Prop :=
    forall bs fr s, exps_code P (resolved V ms (fr_assembly fr)) es bs -> code_here fr bs -> env_at fr s en -> at_world s w ->
      leads 0 fr s r (values_at fr (len bs) en (x_operands s)) /\
      match r with Normal zs _ => List.length zs = count es | _ => True end.
  Definition applies_ok (w : world) (g : nat) (zs : list Z) (r : outcome (option Z)) : Prop :=
    forall t fr s f l en, nth_error P g = Some f -> for_function (resolved V ms (fr_assembly fr)) t g -> code_here fr (x28 :: t) ->
      Forall int32 zs -> List.length zs = fn_params f -> env_at fr s en -> at_world s w ->
      x_operands s = rev (map (VInt I32) zs) ++ l -> leads 1 fr s r (result_at fr f en l).
  Definition tests_ok (w : world) (en : env) (c : test) (r : outcome bool) : Prop :=
    forall want ts n ds fr s, test_code P (resolved V ms (fr_assembly fr)) c want ts n -> List.length ds = n -> code_here fr (ts ++ ds) ->
      env_at fr s en -> at_world s w -> (0 <= Z.of_N (behind fr (ts ++ ds)) + signed_number ds < 2 ^ 64)%Z ->
      leads 2 fr s r (chosen fr (Z.to_N (Z.of_N (behind fr (ts ++ ds)) + signed_number ds)) (behind fr (ts ++ ds)) want en (x_operands s)).
  Definition does_ok (w : world) (en : env) (c : com) (r : outcome progress) : Prop :=
    forall has bs fr s, com_code P (resolved V ms (fr_assembly fr)) has c bs -> code_here fr bs -> env_at fr s en -> at_world s w ->
      apart (fr_params fr) (fr_locals fr) -> small fr -> leads 0 fr s r (arrives fr has (behind fr bs) (x_operands s)).

  (** ** Expressions *)

  Lemma gives_leads fr s w n l en a : gives p fr s n l a -> at_world s w -> env_at fr s en ->
    leads 1 fr s (outcome_of a w) (value_at fr n en l).
  Proof.
    intros H AW EN. destruct a as [z| |]; cbn [outcome_of leads gives] in *; [|now apply dies_at|exact I].
    destruct H as [Z H]. exists 1%nat. eexists. eexists. split; [apply reach_path; now apply continues_reach|]. split; [lia|].
    split; [now apply at_operands|]. split; [exact Z|]. split; [reflexivity|]. split; [exact EN|reflexivity].
  Qed.

  Lemma constant_int32 bs z : constant_code bs (VInt I32 z) -> int32 z.
  Proof.
    intro K. inversion K; subst; try (unfold int32; lia);
      match goal with |- int32 (signed_number ?l) => pose proof (signed_number_range l) as R; cbn [List.length] in R; unfold int32 end.
    - specialize (R ltac:(lia)). change (2 ^ (8 * Z.of_nat 1 - 1))%Z with 128%Z in R. lia.
    - specialize (R ltac:(lia)). change (2 ^ (8 * Z.of_nat 4 - 1))%Z with 2147483648%Z in R. lia.
  Qed.

  Lemma number_ok w en z : evals_ok w en (XNumber z) (Normal z w).
  Proof.
    intros bs fr s XC C EN AW. inversion XC as [z' bs' K| | | |]; subst.
    apply (gives_leads fr s w (len bs) (x_operands s) en (Gives z)); auto.
    split; [eapply constant_int32; eauto|]. intro f. now apply C48_constants.
  Qed.
  Lemma var_ok w en arg i : evals_ok w en (XVar arg i) (outcome_of (look_up en arg i) w).
  Proof.
    intros bs fr s XC C EN AW. inversion XC as [|arg' i' bs' K| | |]; subst. apply gives_leads; auto.
    assert (H : forall z, int32 z -> variable s (group fr arg) i (VInt I32 z) -> gives p fr s (len bs) (x_operands s) (Gives z)).
    { intros z Z VV. split; [exact Z|]. intro f. eapply C48_load_variable; eauto. }
    destruct EN as [EA EL]. unfold look_up. destruct arg.
    - destruct (nth_error (e_args en) (N.to_nat i)) eqn:E; [|exact I]. destruct (EA _ _ E). now apply H.
    - destruct (nth_error (e_locals en) (N.to_nat i)) as [[z|]|] eqn:E; try exact I.
      destruct (EL _ _ E) as (v & VV & F). destruct (F z eq_refl) as [Z ->]. now apply H.
  Qed.

  Lemma unary_leads w en o e x w1 : evals_ok w en e (Normal x w1) -> evals_ok w en (XUnary o e) (outcome_of (unary_meaning p o x) w1).
  Proof.
    intros IH bs fr s XC C EN AW. inversion XC as [| |o' e' bs' i U XE| |]; subst.
    pose proof (code_here_prefix _ _ _ C) as C1. apply code_here_drop in C.
    destruct (IH bs' fr s XE C1 EN AW) as (k & fr1 & s1 & R & L1 & A1 & X & -> & EN1 & O1).
    apply (leads_from k _ 1 _ _ _ _ _ _ R); [lia|]. eapply leads_weaken.
    - apply (gives_leads _ s1 w1 1 (x_operands s) en); [|exact A1|exact EN1]. now eapply unary_ok; eauto.
    - lia.
    - intros z fr' s' (Z & -> & EN' & O'). split; [exact Z|]. split; [|split; [exact EN'|exact O']].
      rewrite set_ip_twice. f_equal. cbn [fr_ip set_ip]. rewrite len_app. change (len [i]) with 1. lia.
  Qed.
  Lemma binary_leads w en o e1 e2 x w1 y w2 : evals_ok w en e1 (Normal x w1) -> evals_ok w1 en e2 (Normal y w2) ->
    evals_ok w en (XBinary o e1 e2) (outcome_of (binary_meaning p o x y) w2).
  Proof.
    intros IH1 IH2 bs fr s XC C EN AW. inversion XC as [| | |o' e1' e2' bs' cs is U XE1 XE2|]; subst.
    pose proof (code_here_prefix _ _ _ C) as C1. apply code_here_drop in C.
    pose proof (code_here_prefix _ _ _ C) as C2. apply code_here_drop in C.
    destruct (IH1 bs' fr s XE1 C1 EN AW) as (k & fr1 & s1 & R & L1 & A1 & X & -> & EN1 & O1).
    apply (leads_from k _ 1 _ _ _ _ _ _ R); [lia|].
    destruct (IH2 cs (set_ip fr (fr_ip fr + len bs')) s1 XE2 C2 EN1 A1) as (k2 & fr2 & s2 & R2 & L2 & A2 & Y & -> & EN2 & O2).
    apply (leads_from k2 _ 1 _ _ _ _ _ _ R2); [lia|]. rewrite O1 in O2. eapply leads_weaken.
    - apply (gives_leads _ s2 w2 (len is) (x_operands s) en); [|exact A2|exact EN2]. now eapply binary_ok; eauto.
    - lia.
    - intros z fr' s' (Z & -> & EN' & O'). split; [exact Z|]. split; [|split; [exact EN'|exact O']].
      rewrite !set_ip_twice. f_equal. cbn [fr_ip set_ip]. rewrite !len_app. lia.
  Qed.

  (** ** Calls *)

  Lemma body_returns f zs w l frc sc o en w' : started V P ms limit G f zs w l frc sc ->
    leads 0 frc sc (Normal (Back o en) w') (arrives frc (fn_result f) (behind frc (fr_code frc)) l) ->
    exists K s', (forall n, (K <= n)%nat -> run n p frc sc = Ok (as_value o) s') /\ at_world s' w' /\ answers (fn_result f) o /\
      x_operands s' = l /\ (env_at frc s' en).
  Proof.
    intros SD (k & fr' & s' & R & _ & AW & (ip & ->) & C & A & EN & O).
    destruct (path_run _ _ _ _ _ _ R) as [K H]. exists (k + S K)%nat, (set_operands s' l).
    split; [|split; [now apply at_operands|split; [exact A|split; [reflexivity|exact EN]]]].
    intros n L. replace n with (k + S (n - k - 1))%nat by lia. rewrite H by lia. cbn [run]. unfold bind.
    rewrite (ret_run (n - k - 1) p _ s' (fn_result f) o l); [reflexivity| |exact C| |exact A|exact O].
    - eapply at_consistent; eauto.
    - eapply at_results; [exact AW|]. exact (sd_result _ _ _ _ _ _ _ _ _ _ _ SD).
  Qed.
  Lemma body_falls f zs w l frc sc en w' : started V P ms limit G f zs w l frc sc ->
    leads 0 frc sc (Normal (Onward en) w') (arrives frc (fn_result f) (behind frc (fr_code frc)) l) -> dies p frc sc.
  Proof.
    intros SD (k & fr' & s' & R & _ & AW & -> & _). eapply dies_path; [exact R|]. apply dies_at. intro f'. apply past_the_end.
    unfold behind. rewrite (sd_ip _ _ _ _ _ _ _ _ _ _ _ SD). cbn [fr_ip set_ip fr_code]. lia.
  Qed.

  Lemma apply_back w g f zs o en w' : nth_error P g = Some f -> may_enter limit w f ->
    does_ok (enter w f) (start zs (fn_locals f)) (fn_body f) (Normal (Back o en) w') ->
    applies_ok w g zs (Normal o (leave w f w')).
  Proof.
    intros EF ME IH t fr s f' l en0 EF' NM C FA La EN AW O. assert (f' = f) as -> by congruence. clear EF'.
    destruct (entry p V P ms limit G CP g f t fr s zs l w EF NM C FA La AW ME O) as
      (m & c & s1 & frc & sc & lv & E1 & EN1 & HO1 & (b & n & Ec & Hb) & U1 & SD & INV & LV & _ & K1 & G1).
    pose proof (IH (fn_result f) (fr_code frc) frc sc (sd_code _ _ _ _ _ _ _ _ _ _ _ SD) (sd_here _ _ _ _ _ _ _ _ _ _ _ SD)
      (sd_env _ _ _ _ _ _ _ _ _ _ _ SD) (sd_world _ _ _ _ _ _ _ _ _ _ _ SD) (sd_apart _ _ _ _ _ _ _ _ _ _ _ SD) (sd_small _ _ _ _ _ _ _ _ _ _ _ SD)) as H.
    rewrite (sd_operands _ _ _ _ _ _ _ _ _ _ _ SD) in H.
    destruct (body_returns f zs _ l frc sc o en w' SD H) as (K & s' & RUN & AW' & A & O' & _).
    pose proof (INV (run K p)) as IK. rewrite (RUN K (le_n K)) in IK. cbn [completed] in IK.
    pose proof (invoke_restores (run K p) (run_advances p K) m c s1) as RE. rewrite IK in RE.
    destruct (LV s') as (L1 & L2 & L3 & L4 & L5).
    exists 1%nat. eexists. eexists. split; [eapply path_call; [exact E1|exact IK|apply path_0]|]. split; [lia|].
    split; [|split; [exact A|split; [reflexivity|split]]].
    - apply at_operands. constructor; cbn [leave w_text w_cells w_bytes].
      + rewrite L1. exact (aw_vm _ _ _ _ _ AW').
      + unfold in_use. rewrite (re_size _ _ _ RE). exact U1.
      + unfold room. rewrite L5. exact (aw_room _ _ _ _ _ AW').
      + rewrite L4. exact (aw_gen _ _ _ _ _ AW').
      + unfold memory. rewrite L2. exact (aw_bytes _ _ _ _ _ AW').
      + unfold modest, memory. rewrite L2. exact (aw_modest _ _ _ _ _ AW').
    - eapply (env_grows fr s).
      + cbn [x_frames set_operands]. rewrite L4, (aw_gen _ _ _ _ _ AW'). symmetry. exact (aw_gen _ _ _ _ _ AW).
      + cbn [x_host set_operands]. rewrite (re_host _ _ _ RE); [exact HO1|rewrite Ec; discriminate].
      + intros i Hi. cbn [x_frames set_operands]. rewrite (re_cells _ _ _ RE); [now apply K1| |].
        * fold (in_use s1) in *. unfold in_use, len in U1. rewrite (aw_cells _ _ _ _ _ AW) in Hi. lia.
        * rewrite Ec. cbn [in_group]. lia.
      + exact EN.
    - cbn [x_operands set_operands]. rewrite L3, O'. reflexivity.
  Qed.

  Lemma apply_dies w g f zs r : nth_error P g = Some f -> may_enter limit w f ->
    does_ok (enter w f) (start zs (fn_locals f)) (fn_body f) r -> (r = Panics \/ exists en w', r = Normal (Onward en) w') ->
    applies_ok w g zs Panics.
  Proof.
    intros EF ME IH HR t fr s f' l en0 EF' NM C FA La EN AW O. assert (f' = f) as -> by congruence. clear EF'.
    destruct (entry p V P ms limit G CP g f t fr s zs l w EF NM C FA La AW ME O) as
      (m & c & s1 & frc & sc & lv & E1 & EN1 & HO1 & _ & U1 & SD & INV & _).
    pose proof (IH (fn_result f) (fr_code frc) frc sc (sd_code _ _ _ _ _ _ _ _ _ _ _ SD) (sd_here _ _ _ _ _ _ _ _ _ _ _ SD)
      (sd_env _ _ _ _ _ _ _ _ _ _ _ SD) (sd_world _ _ _ _ _ _ _ _ _ _ _ SD) (sd_apart _ _ _ _ _ _ _ _ _ _ _ SD) (sd_small _ _ _ _ _ _ _ _ _ _ _ SD)) as H.
    rewrite (sd_operands _ _ _ _ _ _ _ _ _ _ _ SD) in H.
    assert (D : dies p frc sc).
    { destruct HR as [->|(en & w' & ->)]; [exact H|]. eapply body_falls; eauto. }
    destruct D as [K D]. cbn [leads]. eapply dies_call; [exact E1|]. exists K. intros n L. rewrite INV.
    destruct (D n L) as [why ->]. now eexists.
  Qed.

  Lemma call_code_here fr bs t : code_here fr (bs ++ [x28] ++ t) ->
    code_here fr bs /\ code_here (set_ip fr (fr_ip fr + len bs)) (x28 :: t).
  Proof. intro C. split; [now apply code_here_prefix in C|now apply code_here_drop in C]. Qed.

  Lemma names_length a t g : names V ms a t g -> len t = 4.
  Proof. intros [L _]. unfold len. now rewrite L. Qed.

  (** ** Conditions *)

  Lemma nonzero_leads w en e z w' : evals_ok w en e (Normal z w') -> tests_ok w en (TNonzero e) (Normal (negb (z =? 0)%Z) w').
  Proof.
    intros IH want ts n ds fr s TC L C EN AW RG. unfold behind in *. inversion TC as [e' bs i n' zero XC ZC| |]; subst.
    pose proof (code_here_prefix _ _ _ (code_here_prefix _ _ _ C)) as C1. rewrite <- app_assoc in C. apply code_here_drop in C. cbn [app] in C.
    destruct (IH bs fr s XC C1 EN AW) as (k & fr1 & s1 & R & L1 & A1 & Z & -> & EN1 & O1).
    apply (leads_from k _ 1 _ _ _ _ _ _ R); [lia|]. set (fr1 := set_ip fr (fr_ip fr + len bs)) in *.
    assert (E1 : fr_ip fr1 + (1 + N.of_nat (List.length ds)) = fr_ip fr + len ((bs ++ [i]) ++ ds)).
    { unfold fr1, len. cbn [fr_ip set_ip]. rewrite !app_length. cbn [List.length]. lia. }
    pose proof (fun f => C47_branch_on_zero f p fr1 s1 i _ zero ds (VInt I32 z) (x_operands s) ZC C eq_refl O1 I) as H.
    assert (RR : (0 <= Z.of_N (fr_ip fr1) + 1 + Z.of_nat (List.length ds) + signed_number ds < 2 ^ 64)%Z) by lia.
    exists 1%nat, (set_ip fr (if Bool.eqb (negb (z =? 0)%Z) (negb zero)
                       then Z.to_N (Z.of_N (fr_ip fr + len ((bs ++ [i]) ++ ds)) + signed_number ds) else fr_ip fr + len ((bs ++ [i]) ++ ds))),
           (set_operands s1 (x_operands s)).
    split; [|split; [lia|split; [now apply at_operands|split; [reflexivity|split; [exact EN1|reflexivity]]]]].
    apply reach_path, reach_1. intro f. destruct (Bool.eqb (negb (z =? 0)%Z) (negb zero)) eqn:T.
    - apply Bool.eqb_prop in T. apply branch_taken in T. rewrite (branches_eq _ _ _ _ _ _ (proj1 (H f RR) T)), E1. reflexivity.
    - apply Bool.eqb_false_iff in T. rewrite branch_taken in T. rewrite (continues_eq _ _ _ _ _ (proj2 (H f RR) T)), E1. reflexivity.
  Qed.
  Lemma rel_leads w en r e1 e2 x w1 y w2 : evals_ok w en e1 (Normal x w1) -> evals_ok w1 en e2 (Normal y w2) ->
    tests_ok w en (TRel r e1 e2) (Normal (related r (x ?= y)%Z) w2).
  Proof.
    intros IH1 IH2 want ts n ds fr s TC L C EN AW RG. unfold behind in *. inversion TC as [|r' a' b' bs cs i n' rel want' XA XB BC HR|]; subst.
    pose proof (code_here_prefix _ _ _ (code_here_prefix _ _ _ C)) as C1. rewrite <- app_assoc in C. apply code_here_drop in C.
    pose proof (code_here_prefix _ _ _ (code_here_prefix _ _ _ C)) as C2. rewrite <- app_assoc in C. apply code_here_drop in C. cbn [app] in C.
    destruct (IH1 bs fr s XA C1 EN AW) as (k & fr1 & s1 & R & L1 & A1 & X & -> & EN1 & O1). apply (leads_from k _ 1 _ _ _ _ _ _ R); [lia|].
    destruct (IH2 cs (set_ip fr (fr_ip fr + len bs)) s1 XB C2 EN1 A1) as (k2 & fr2 & s2 & R2 & L2 & A2 & Y & -> & EN2 & O2). apply (leads_from k2 _ 1 _ _ _ _ _ _ R2); [lia|].
    rewrite O1 in O2. cbn [fr_ip set_ip] in *. rewrite !set_ip_twice in *. set (fr2 := set_ip fr (fr_ip fr + len bs + len cs)) in *.
    assert (E1 : fr_ip fr2 + (1 + N.of_nat (List.length ds)) = fr_ip fr + len ((bs ++ cs ++ [i]) ++ ds)).
    { unfold fr2, len. cbn [fr_ip set_ip]. rewrite !app_length. cbn [List.length]. lia. }
    pose proof (fun f => C47_branch f p fr2 s2 i _ rel ds (VInt I32 x) (VInt I32 y) (Some (x ?= y)%Z) (x_operands s) BC C eq_refl O2
                  (ordered_int _ _ _)) as H.
    assert (RR : (0 <= Z.of_N (fr_ip fr2) + 1 + Z.of_nat (List.length ds) + signed_number ds < 2 ^ 64)%Z) by lia.
    assert (Q : (exists d, Some (x ?= y)%Z = Some d /\ rel d) <-> related r (x ?= y)%Z = want).
    { rewrite <- HR. split; [intros (d & E & G'); congruence|eauto]. }
    exists 1%nat, (set_ip fr (if Bool.eqb (related r (x ?= y)%Z) want
                       then Z.to_N (Z.of_N (fr_ip fr + len ((bs ++ cs ++ [i]) ++ ds)) + signed_number ds) else fr_ip fr + len ((bs ++ cs ++ [i]) ++ ds))),
           (set_operands s2 (x_operands s)).
    split; [|split; [lia|split; [now apply at_operands|split; [reflexivity|split; [exact EN2|reflexivity]]]]].
    apply reach_path, reach_1. intro f. destruct (Bool.eqb (related r (x ?= y)%Z) want) eqn:T.
    - apply Bool.eqb_prop in T. rewrite <- Q in T. rewrite (branches_eq _ _ _ _ _ _ (proj1 (H f RR) T)), E1. reflexivity.
    - apply Bool.eqb_false_iff in T. rewrite <- Q in T. rewrite (continues_eq _ _ _ _ _ (proj2 (H f RR) T)), E1. reflexivity.
  Qed.

  (** ** Commands *)

  Lemma arrives_from k m fr s x fr1 s1 (r : outcome progress) has e l : path p k fr s fr1 s1 -> fr1 = set_ip fr x ->
    leads 0 fr1 s1 r (arrives fr1 has e l) -> (m <= k)%nat -> leads m fr s r (arrives fr has e l).
  Proof.
    intros R -> H L. apply (leads_from k _ 0 _ _ _ _ _ _ R); [lia|]. eapply leads_weaken; [exact H|lia|].
    intros [en|o en] fr' s'; cbn [arrives]; auto.
  Qed.

  Lemma assign_leads w en arg i e z w' : evals_ok w en e (Normal z w') -> exists_var en arg i = true ->
    does_ok w en (CAssign arg i e) (Normal (Onward (assign en arg i z)) w').
  Proof.
    intros IH X has bs fr s SC C EN AW AP SM. inversion SC as [| |arg' i' e' bs' cs XC STC| | | | | | | | | |]; subst.
    pose proof (code_here_prefix _ _ _ C) as C1. apply code_here_drop in C.
    destruct (IH bs' fr s XC C1 EN AW) as (k & fr1 & s1 & R & _ & A1 & Z & -> & EN1 & O1).
    apply (leads_from k _ 0 _ _ _ _ _ _ R); [lia|].
    set (fr1 := set_ip fr (fr_ip fr + len bs')) in *.
    assert (VV : exists u, variable s1 (group fr1 arg) i u).
    { destruct EN1 as [EA EL]. destruct arg; cbn [exists_var group] in *; apply Nat.ltb_lt in X.
      - destruct (nth_error (e_args en) (N.to_nat i)) as [u|] eqn:U; [|apply nth_error_None in U; lia].
        destruct (EA i u U). eauto.
      - destruct (nth_error (e_locals en) (N.to_nat i)) as [u|] eqn:U; [|apply nth_error_None in U; lia].
        destruct (EL i u U) as (u' & Hu & _). eauto. }
    destruct VV as [u VV].
    pose proof (C48_store_variable 0 p fr1 s1 cs arg i u (VInt I32 z) (x_operands s) STC C VV O1) as ST.
    pose proof ST as (fr2 & s2 & E2 & F2 & O2 & V2 & H2 & A2 & _ & G2 & K2 & L2 & LH & _).
    exists 1%nat, fr2, s2. split.
    - apply reach_path, reach_1. intro f. eapply step_more; [exact E2|discriminate|lia].
    - split; [lia|]. apply frame_at_eq in F2. subst fr2. split; [|split; [|split; [|exact O2]]].
      + pose proof (aw_modest _ _ _ _ _ A1) as MO. destruct A1.
        constructor; [| | | | |unfold modest, memory in *; rewrite H2; exact MO]; unfold in_use, room, memory, len in *; congruence.
      + unfold fr1. rewrite set_ip_twice. f_equal. unfold behind. rewrite len_app. cbn [fr_ip set_ip]. lia.
      + exact (env_assign fr1 s1 s2 _ en arg i z (len cs) (x_operands s) _ ST E2 EN1 AP Z X).
  Qed.

  Lemma print_leads w en text : may_print limit w text -> does_ok w en (CPrint text) (Normal (Onward en) (after_print w text)).
  Proof.
    intros [MC MB] has bs fr s SC C EN AW AP SM. inversion SC as [| | | | | | | | | | | |text' t u LT WR]; subst.
    destruct LT as (Lt & SCA & DS & TI). destruct WR as (Lu & m & D & IM & AM).
    unfold after_print, string_bytes in MB, MC. cbn [w_bytes w_cells] in MB, MC.
    pose proof (code_here_prefix _ ([x72] ++ t) _ C) as C1. apply (code_here_drop _ ([x72] ++ t)) in C. cbn [app] in C, C1.
    destruct (literal_run p fr s t (utf16_encode text)) as (o & s1 & E1 & V1 & O1 & SV & F1 & H1 & M1 & B1).
    { eapply at_consistent; eauto. }
    { exact C1. }
    { exact Lt. }
    { rewrite (aw_vm _ _ _ _ _ AW). exact DS. }
    { rewrite (aw_vm _ _ _ _ _ AW). exact TI. }
    { exact (aw_modest _ _ _ _ _ AW). }
    { rewrite (aw_bytes _ _ _ _ _ AW). exact MB. }
    assert (L5 : len (x72 :: t) = 5) by (unfold len; cbn [List.length]; lia). rewrite L5 in C.
    destruct (call_run p (set_ip fr (fr_ip fr + 5)) s1 u m [VObject o] (x_operands s)) as
      (s2 & E2 & VA & O2 & V2 & H2 & HO2 & G2 & R2 & U2 & K2).
    { exact C. } { exact Lu. }
    { rewrite V1. eapply at_denotes; eauto. }
    { exact O1. } { now rewrite AM. }
    { unfold in_use, room. rewrite F1, AM. pose proof (aw_cells _ _ _ _ _ AW) as A1. pose proof (aw_room _ _ _ _ _ AW) as A2.
      unfold in_use, room in A1, A2. lia. }
    cbv zeta in E2. rewrite AM in *. cbn [fr_ip set_ip] in E2.
    set (c := CFrames _ _ _) in *.
    assert (SV2 : string_value s2 o (utf16_encode text)).
    { destruct SV as (id & l & cs & Q1 & Q2 & Q3 & Q4). exists id, l, cs. split; [exact Q1|]. split; [exact Q2|]. split; [exact Q3|].
      unfold stored, memory in *. now rewrite H2. }
    pose proof (write_run (run 0 p) m c s2 o text IM (VA 0 _ eq_refl) SV2 SCA) as IV.
    exists 2%nat. eexists. eexists. split.
    { eapply path_step; [exact E1|]. eapply path_call; [exact E2|exact IV|apply path_0]. }
    split; [lia|]. split; [|split; [|split]].
    - apply at_operands. constructor; cbn [x_vm set_vm x_frames after_print w_text w_cells w_bytes].
      + rewrite V2, V1, (aw_vm _ _ _ _ _ AW). unfold set_output. cbn [c_output]. now rewrite app_assoc.
      + change (in_use s2 = w_cells w + 1). rewrite U2. unfold in_use. rewrite F1. pose proof (aw_cells _ _ _ _ _ AW) as A1. unfold in_use in A1. lia.
      + change (room s2 = limit). rewrite R2. unfold room. rewrite F1. exact (aw_room _ _ _ _ _ AW).
      + rewrite G2, F1. exact (aw_gen _ _ _ _ _ AW).
      + change (len (memory s2) = w_bytes w + string_bytes text). unfold memory. rewrite H2. fold (memory s1). rewrite B1, (aw_bytes _ _ _ _ _ AW).
        unfold string_bytes. lia.
      + unfold modest, memory. cbn [x_heap set_vm]. rewrite H2. exact M1.
    - unfold behind. rewrite set_ip_twice. f_equal. unfold len. rewrite !app_length. cbn [List.length]. lia.
    - eapply (env_grows fr s).
      + cbn [x_frames set_operands set_vm]. now rewrite G2, F1.
      + cbn [x_host set_operands set_vm]. now rewrite HO2.
      + intros i Hi. cbn [x_frames set_operands set_vm]. rewrite K2; [now rewrite F1|]. unfold in_use in *. now rewrite F1.
      + exact EN.
    - cbn [x_operands set_operands set_vm then_push]. exact O2.
  Qed.

  Lemma do_leads w en g es zs w1 w2 : evals_all_ok w en es (Normal zs w1) -> applies_ok w1 g zs (Normal None w2) ->
    does_ok w en (CDo g es) (Normal (Onward en) w2).
  Proof.
    intros IH IA has bs fr s SC C EN AW AP SM. inversion SC as [| | | | | | | | | |g' f es' bs' t EF HR CN XC NM| |]; subst.
    apply call_code_here in C. destruct C as [C1 C2].
    destruct (IH bs' fr s XC C1 EN AW) as [(k & fr1 & s1 & R & _ & A1 & FZ & -> & EN1 & O1) LZ].
    apply (leads_from k _ 1 _ _ _ _ _ _ R); [lia|]. rewrite CN in LZ.
    pose proof (IA t (set_ip fr (fr_ip fr + len bs')) s1 f (x_operands s) en EF NM C2 FZ LZ EN1 A1 O1) as H.
    destruct H as (k2 & fr2 & s2 & R2 & L2 & A2 & _ & -> & EN2 & O2).
    exists k2. eexists. exists s2. split; [exact R2|]. split; [exact L2|]. split; [exact A2|]. split; [|split; [exact EN2|exact O2]].
    rewrite set_ip_twice. f_equal. unfold behind. cbn [fr_ip set_ip]. rewrite !len_app, (names_length _ _ _ NM). change (len [x28]) with 1. lia.
  Qed.
  Lemma call_leads w en g es zs w1 z w2 : evals_all_ok w en es (Normal zs w1) -> applies_ok w1 g zs (Normal (Some z) w2) ->
    evals_ok w en (XCall g es) (Normal z w2).
  Proof.
    intros IH IA bs fr s XC C EN AW. inversion XC as [| | | |g' f es' bs' t EF HR CN XE NM]; subst.
    apply call_code_here in C. destruct C as [C1 C2].
    destruct (IH bs' fr s XE C1 EN AW) as [(k & fr1 & s1 & R & _ & A1 & FZ & -> & EN1 & O1) LZ].
    apply (leads_from k _ 1 _ _ _ _ _ _ R); [lia|]. rewrite CN in LZ.
    pose proof (IA t (set_ip fr (fr_ip fr + len bs')) s1 f (x_operands s) en EF NM C2 FZ LZ EN1 A1 O1) as H.
    destruct H as (k2 & fr2 & s2 & R2 & L2 & A2 & AN & -> & EN2 & O2).
    exists k2. eexists. exists s2. split; [exact R2|]. split; [exact L2|]. split; [exact A2|]. split; [exact (proj2 AN)|].
    split; [|split; [exact EN2|exact O2]].
    rewrite set_ip_twice. f_equal. cbn [fr_ip set_ip]. rewrite !len_app, (names_length _ _ _ NM). change (len [x28]) with 1. lia.
  Qed.
  (** A call that does not come back. *)
  Lemma call_abrupt {A} w en es zs w1 g f (q : outcome (option Z)) (r : outcome A) bs t fr s m K :
    evals_all_ok w en es (Normal zs w1) -> applies_ok w1 g zs q -> abrupt q r ->
    nth_error P g = Some f -> count es = fn_params f -> exps_code P (resolved V ms (fr_assembly fr)) es bs -> for_function (resolved V ms (fr_assembly fr)) t g ->
    code_here fr (bs ++ [x28] ++ t) -> env_at fr s en -> at_world s w -> leads m fr s r K.
  Proof.
    intros IH IA AB EF CN XE NM C EN AW. apply call_code_here in C. destruct C as [C1 C2].
    destruct (IH bs fr s XE C1 EN AW) as [(k & fr1 & s1 & R & _ & A1 & FZ & -> & EN1 & O1) LZ]. rewrite CN in LZ.
    pose proof (IA t (set_ip fr (fr_ip fr + len bs)) s1 f (x_operands s) en EF NM C2 FZ LZ EN1 A1 O1) as H.
    apply (leads_from k _ m _ _ _ _ _ _ R); [lia|]. eapply leads_abrupt; [exact H|exact AB].
  Qed.

  (** ** Loops *)

  Record loop (c : test) (a : com) (has : bool) (bs : list byte) (fr : frame) (at_test at_body : N) (cs : list byte) : Prop := mkLoop {
    lp_body : com_code P (resolved V ms (fr_assembly fr)) has a cs;
    lp_here : code_here (set_ip fr at_body) cs;
    lp_some : bs <> [];
    lp_entry : forall s, at_test = fr_ip fr \/
      ~ code_here fr [x2a] /\ forall f, step f p fr s = Ok (ONext (set_ip fr at_test)) s;
    lp_test : forall w en s r, tests_ok w en c r -> env_at fr s en -> at_world s w ->
      leads 2 (set_ip fr at_test) s r (chosen fr at_body (behind fr bs) true en (x_operands s));
    lp_test_code : exists want ts n ds, test_code P (resolved V ms (fr_assembly fr)) c want ts n /\ code_here (set_ip fr at_test) (ts ++ ds);
    lp_again : forall s, exists k, path p k (set_ip fr (behind (set_ip fr at_body) cs)) s (set_ip fr at_test) s }.

  Lemma while_loop c a has bs fr : com_code P (resolved V ms (fr_assembly fr)) has (CWhile c a) bs -> code_here fr bs -> small fr ->
    exists at_test at_body cs, loop c a has bs fr at_test at_body cs.
  Proof.
    intros SC C SM. pose proof (behind_small _ _ SM C) as SZ.
    inversion SC as [| | | | | |c' a' ts n ds bs' j k es BO LD SA J LE DD DE|c' a' ts n ds bs' j k es J LE SA BO LD DE DD| | | | |]; subst c' a'; subst.
    - assert (C1 : code_here fr (ts ++ ds)).
      { apply (code_here_prefix _ _ (bs' ++ [j] ++ es)). now rewrite <- app_assoc. }
      assert (C2 : code_here (set_ip fr (behind fr (ts ++ ds))) (bs' ++ [j] ++ es)).
      { apply code_here_drop. now rewrite <- app_assoc. }
      exists (fr_ip fr), (behind fr (ts ++ ds)), bs'. constructor.
      + exact SA.
      + now apply code_here_prefix in C2.
      + intro E. apply app_eq_nil in E. destruct E as [_ E]. apply app_eq_nil in E. destruct E as [_ E].
        apply app_eq_nil in E. destruct E as [_ E]. discriminate.
      + intro s. now left.
      + intros w en s r T EN AW. rewrite set_ip_same.
        eapply leads_weaken; [eapply (T false ts _ ds fr s BO eq_refl C1 EN AW); sizes|lia|].
        intros b fr' s' (-> & EN' & O'). split; [|auto]. f_equal.
        destruct b; cbn [Bool.eqb]; [reflexivity|]. rewrite DD. sizes.
      + exists false, ts, (List.length ds), ds. rewrite set_ip_same. auto.
      + intro s. exists 1%nat. apply code_here_drop in C2. cbn [app] in C2.
        apply reach_path, reach_1. intro f.
        change (set_ip (set_ip fr (behind fr (ts ++ ds))) (fr_ip (set_ip fr (behind fr (ts ++ ds))) + len bs'))
          with (set_ip fr (behind (set_ip fr (behind fr (ts ++ ds))) bs')) in C2.
        rewrite (jump_ok p j _ es _ s J eq_refl C2) by (rewrite DE; sizes).
        rewrite set_ip_twice, DE. do 3 f_equal. sizes.
    - assert (C1 : code_here fr (j :: es)).
      { apply (code_here_prefix _ _ (bs' ++ ts ++ ds)). exact C. }
      assert (C2 : code_here (set_ip fr (behind fr (j :: es))) (bs' ++ ts ++ ds)).
      { apply code_here_drop. exact C. }
      assert (C3 : code_here (set_ip fr (behind fr (j :: es ++ bs'))) (ts ++ ds)).
      { apply code_here_drop in C2. assert (X : fr_ip (set_ip fr (behind fr (j :: es))) + len bs' = behind fr (j :: es ++ bs')) by sizes.
        rewrite X in C2. exact C2. }
      exists (behind fr (j :: es ++ bs')), (behind fr (j :: es)), bs'. constructor.
      + exact SA.
      + now apply code_here_prefix in C2.
      + discriminate.
      + intro s. right. split.
        * intro X. pose proof (code_here_first _ _ _ _ _ C1 X) as ->. inversion J.
        * intro f. rewrite (jump_ok p j _ es fr s J eq_refl C1) by (rewrite DE; sizes).
          do 3 f_equal. rewrite DE. sizes.
      + intros w en s r T EN AW.
        eapply leads_weaken; [eapply (T true ts _ ds (set_ip fr (behind fr (j :: es ++ bs'))) s BO eq_refl C3 EN AW); sizes|lia|].
        intros b fr' s' (-> & EN' & O'). split; [|auto]. rewrite set_ip_twice. f_equal.
        destruct b; cbn [Bool.eqb]; [rewrite DD|]; sizes.
      + exists true, ts, (List.length ds), ds. auto.
      + intro s. exists 0%nat.
        replace (behind (set_ip fr (behind fr (j :: es))) bs') with (behind fr (j :: es ++ bs')) by sizes. constructor.
  Qed.

  Lemma loop_entry c a has bs fr at_test at_body cs s e l r : loop c a has bs fr at_test at_body cs ->
    leads 0 (set_ip fr at_test) s r (arrives fr has e l) -> leads 0 fr s r (arrives fr has e l).
  Proof.
    intros L H. destruct (lp_entry _ _ _ _ _ _ _ _ L s) as [->|[_ E]].
    - now rewrite set_ip_same in H.
    - eapply (leads_from 1); [apply reach_path, reach_1; exact E| |exact H]. lia.
  Qed.
  Lemma loop_back c a has bs fr at_test at_body cs s l r : loop c a has bs fr at_test at_body cs ->
    leads 0 fr s r (arrives fr has (behind fr bs) l) -> leads 0 (set_ip fr at_test) s r (arrives fr has (behind fr bs) l).
  Proof.
    intros L H. destruct (lp_entry _ _ _ _ _ _ _ _ L s) as [->|[N E]].
    - now rewrite set_ip_same.
    - destruct r as [g w| |]; [| |exact I].
      + destruct H as (k & fr' & s' & R & _ & AW & T).
        inversion R as [x y Q|n fr0 s0 fr1 s1 fr2 s2 E' R' |n k' fr0 s0 m c' fr1 s1 v s2 fr3 s3 E' I' R']; subst.
        * exfalso. destruct g as [en|o en]; cbn [arrives] in T.
          -- destruct T as (X & _). assert (Y : fr_ip fr' = fr_ip (set_ip fr' (behind fr' bs))) by now rewrite <- X.
             pose proof (lp_some _ _ _ _ _ _ _ _ L). destruct bs; [congruence|]. unfold behind, len in Y. cbn [fr_ip set_ip List.length] in Y. lia.
          -- destruct T as (_ & X & _). contradiction.
        * specialize (E' 0%nat). rewrite E in E'. injection E' as <- <-. exists n, fr', s'. split; [exact R'|]. split; [lia|]. auto.
        * specialize (E' 0%nat). rewrite E in E'. discriminate.
      + destruct H as [K H]. exists K. intros f Lf. specialize (H (S f) ltac:(lia)). cbn [run] in H. unfold bind in H. rewrite E in H. exact H.
  Qed.

  (** ** All together *)

  Theorem meaning_ok :
    (forall w en e r, evals p P limit w en e r -> evals_ok w en e r) /\
    (forall w en es r, evals_all p P limit w en es r -> evals_all_ok w en es r) /\
    (forall w g zs r, applies p P limit w g zs r -> applies_ok w g zs r) /\
    (forall w en c r, tests p P limit w en c r -> tests_ok w en c r) /\
    (forall w en c r, does p P limit w en c r -> does_ok w en c r).
  Proof.
    apply meaning_ind.
    - intros. apply number_ok.
    - intros. apply var_ok.
    - intros. eapply unary_leads; eauto.
    - intros w en o a r r' _ IH AB bs fr s XC C EN AW. inversion XC as [| |o' e' bs' i U XE| |]; subst.
      apply code_here_prefix in C. eapply leads_abrupt; [exact (IH bs' fr s XE C EN AW)|exact AB].
    - intros. eapply binary_leads; eauto.
    - intros w en o a b r r' _ IH AB bs fr s XC C EN AW. inversion XC as [| | |o' e1' e2' bs' cs is U XE1 XE2|]; subst.
      apply code_here_prefix in C. eapply leads_abrupt; [exact (IH bs' fr s XE1 C EN AW)|exact AB].
    - intros w en o a b x w1 r r' _ IH1 _ IH2 AB bs fr s XC C EN AW. inversion XC as [| | |o' e1' e2' bs' cs is U XE1 XE2|]; subst.
      pose proof (code_here_prefix _ _ _ C) as C1. apply code_here_drop in C. apply code_here_prefix in C.
      destruct (IH1 bs' fr s XE1 C1 EN AW) as (k & fr1 & s1 & R & _ & A1 & X & -> & EN1 & O1).
      apply (leads_from k _ 1 _ _ _ _ _ _ R); [lia|].
      eapply leads_abrupt; [exact (IH2 cs (set_ip fr (fr_ip fr + len bs')) s1 XE2 C EN1 A1)|exact AB].
    - intros. eapply call_leads; eauto.
    - intros w en g es zs w1 r r' _ IH _ IA AB bs fr s XC C EN AW. inversion XC as [| | | |g' f es' bs' t EF HR CN XE NM]; subst.
      eapply call_abrupt; eauto.
    - intros w en g es r r' _ IH AB bs fr s XC C EN AW. inversion XC as [| | | |g' f es' bs' t EF HR CN XE NM]; subst.
      apply code_here_prefix in C. eapply leads_abrupt; [exact (proj1 (IH bs' fr s XE C EN AW))|exact AB].
    - (* no arguments *)
      intros w en bs fr s XC C EN AW. inversion XC; subst. split; [|reflexivity].
      exists 0%nat, fr, s. split; [constructor|]. split; [lia|]. split; [exact AW|]. split; [constructor|].
      split; [|split; [exact EN|reflexivity]]. change (len []) with 0. rewrite N.add_0_r. symmetry. apply set_ip_same.
    - intros w en e es z w1 zs w2 _ IH1 _ IH2 bs fr s XC C EN AW. inversion XC as [|e' es' bs' cs XE XS]; subst.
      pose proof (code_here_prefix _ _ _ C) as C1. apply code_here_drop in C.
      destruct (IH1 bs' fr s XE C1 EN AW) as (k & fr1 & s1 & R & _ & A1 & Z & -> & EN1 & O1).
      destruct (IH2 cs (set_ip fr (fr_ip fr + len bs')) s1 XS C EN1 A1) as [(k2 & fr2 & s2 & R2 & _ & A2 & FZ & -> & EN2 & O2) LZ].
      split; [|cbn [List.length count]; now rewrite LZ].
      exists (k + k2)%nat, (set_ip fr (fr_ip fr + len (bs' ++ cs))), s2.
      split; [eapply path_trans; [exact R|]|].
      + replace (fr_ip fr + len (bs' ++ cs)) with (fr_ip fr + len bs' + len cs) by (rewrite len_app; lia). exact R2.
      + split; [lia|]. split; [exact A2|]. split; [now constructor|]. split; [reflexivity|]. split; [exact EN2|].
        rewrite O2, O1. cbn [map rev]. now rewrite <- app_assoc.
    - intros w en e es r r' _ IH AB bs fr s XC C EN AW. inversion XC as [|e' es' bs' cs XE XS]; subst.
      apply code_here_prefix in C. split; [|destruct AB as [[_ ->]|[_ ->]]; exact I].
      eapply leads_abrupt; [exact (IH bs' fr s XE C EN AW)|exact AB].
    - intros w en e es z w1 r r' _ IH1 _ IH2 AB bs fr s XC C EN AW. inversion XC as [|e' es' bs' cs XE XS]; subst.
      pose proof (code_here_prefix _ _ _ C) as C1. apply code_here_drop in C.
      destruct (IH1 bs' fr s XE C1 EN AW) as (k & fr1 & s1 & R & _ & A1 & Z & -> & EN1 & O1).
      split; [|destruct AB as [[_ ->]|[_ ->]]; exact I].
      apply (leads_from k _ 0 _ _ _ _ _ _ R); [lia|].
      eapply leads_abrupt; [exact (proj1 (IH2 cs (set_ip fr (fr_ip fr + len bs')) s1 XS C EN1 A1))|exact AB].
    - intros w g f zs o en w' EF ME _ IH. eapply apply_back; eauto.
    - intros w g f zs en w' EF ME _ IH. eapply apply_dies; eauto.
    - intros w g f zs r r' EF ME _ IH [[-> ->]|[-> ->]]; [eapply apply_dies; eauto|]. repeat intro. exact I.
    - repeat intro. exact I.
    - intros. eapply nonzero_leads; eauto.
    - intros w en e r r' _ IH AB want ts n ds fr s TC L C EN AW RG. inversion TC as [e' bs i n' zero XC ZC| |]; subst.
      apply code_here_prefix, code_here_prefix in C. eapply leads_abrupt; [exact (IH bs fr s XC C EN AW)|exact AB].
    - intros. eapply rel_leads; eauto.
    - intros w en r a b q q' _ IH AB want ts n ds fr s TC L C EN AW RG. inversion TC as [|r' a' b' bs cs i n' rel want' XA XB BC HR|]; subst.
      apply code_here_prefix, code_here_prefix in C. eapply leads_abrupt; [exact (IH bs fr s XA C EN AW)|exact AB].
    - intros w en r a b x w1 q q' _ IH1 _ IH2 AB want ts n ds fr s TC L C EN AW RG.
      inversion TC as [|r' a' b' bs cs i n' rel want' XA XB BC HR|]; subst.
      apply code_here_prefix in C. pose proof (code_here_prefix _ _ _ C) as C1. apply code_here_drop, code_here_prefix in C.
      destruct (IH1 bs fr s XA C1 EN AW) as (k & fr1 & s1 & R & _ & A1 & X & -> & EN1 & O1).
      apply (leads_from k _ 2 _ _ _ _ _ _ R); [lia|].
      eapply leads_abrupt; [exact (IH2 cs (set_ip fr (fr_ip fr + len bs)) s1 XB C EN1 A1)|exact AB].
    - intros w en c b w' _ IH want ts n ds fr s TC L C EN AW RG. inversion TC as [| |c' want' ts' n' TC']; subst.
      destruct (IH (negb want) ts _ ds fr s TC' eq_refl C EN AW RG) as (k & fr1 & s1 & R & Lk & A1 & -> & H).
      exists k. eexists. exists s1. split; [exact R|]. split; [exact Lk|]. split; [exact A1|]. split; [|exact H].
      now destruct b, want.
    - intros w en c r r' _ IH AB want ts n ds fr s TC L C EN AW RG. inversion TC as [| |c' want' ts' n' TC']; subst.
      eapply leads_abrupt; [exact (IH (negb want) ts _ ds fr s TC' eq_refl C EN AW RG)|exact AB].
    - (* skip *)
      intros w en has bs fr s SC C EN AW AP SM. inversion SC; subst.
      + exists 0%nat, fr, s. split; [constructor|]. split; [lia|]. split; [exact AW|]. split; [|split; [exact EN|reflexivity]].
        unfold behind. change (len []) with 0. rewrite N.add_0_r. symmetry. apply set_ip_same.
      + exists 1%nat, (set_ip fr (fr_ip fr + 1)), s. split; [|split; [lia|split; [exact AW|split; [reflexivity|split; [exact EN|reflexivity]]]]].
        apply reach_path, reach_1. intro f. step_at C. reflexivity.
    - intros. eapply assign_leads; eauto.
    - repeat intro. exact I.
    - intros w en arg i e r r' _ IH AB has bs fr s SC C EN AW AP SM. inversion SC as [| |arg' i' e' bs' cs XC STC| | | | | | | | | |]; subst.
      apply code_here_prefix in C. eapply leads_abrupt; [exact (IH bs' fr s XC C EN AW)|exact AB].
    - (* seq *)
      intros w en a b en1 w1 r _ IHa _ IHb has bs fr s SC C EN AW AP SM. inversion SC as [| | |a' b' bs' cs SA SB| | | | | | | | |]; subst.
      pose proof (code_here_prefix _ _ _ C) as C1. apply code_here_drop in C.
      destruct (IHa has bs' fr s SA C1 EN AW AP SM) as (k & fr1 & s1 & R & _ & A1 & -> & EN1 & O1).
      eapply arrives_from; [exact R|reflexivity| |lia]. rewrite <- O1.
      replace (behind fr (bs' ++ cs)) with (behind (set_ip fr (behind fr bs')) cs) by sizes.
      now apply IHb.
    - intros w en a b o en1 w1 _ IHa has bs fr s SC C EN AW AP SM. inversion SC as [| | |a' b' bs' cs SA SB| | | | | | | | |]; subst.
      apply code_here_prefix in C. exact (IHa has bs' fr s SA C EN AW AP SM).
    - intros w en a b r r' _ IH AB has bs fr s SC C EN AW AP SM. inversion SC as [| | |a' b' bs' cs SA SB| | | | | | | | |]; subst.
      apply code_here_prefix in C. eapply leads_abrupt; [exact (IH has bs' fr s SA C EN AW AP SM)|exact AB].
    - (* if *)
      intros w en c a b t w1 r _ IHc _ IH has bs fr s SC C EN AW AP SM. pose proof (behind_small _ _ SM C) as SZ.
      inversion SC as [| | | |c' a' b' ts n ds bs' j k es cs BO LD SA J LE SB DD DE|c' a' ts n ds bs' BO LD SA DD| | | | | | |]; subst c'; subst.
      + assert (C1 : code_here fr (ts ++ ds)).
        { apply (code_here_prefix _ _ (bs' ++ [j] ++ es ++ cs)). now rewrite <- app_assoc. }
        assert (C2 : code_here (set_ip fr (behind fr (ts ++ ds))) (bs' ++ [j] ++ es ++ cs)).
        { apply code_here_drop. now rewrite <- app_assoc. }
        destruct (IHc false ts _ ds fr s BO eq_refl C1 EN AW ltac:(sizes)) as (k & fr1 & s1 & R & _ & A1 & E1 & EN1 & O1).
        eapply arrives_from; [exact R|exact E1| |lia]. rewrite <- O1. subst fr1. destruct t; cbn [Bool.eqb].
        * (* then *)
          set (x := behind fr (ts ++ ds)) in *.
          pose proof (code_here_prefix _ _ _ C2) as C3.
          specialize (IH has bs' (set_ip fr x) s1 SA C3 EN1 A1 AP SM). destruct r as [[en'|o en']| |]; [|exact IH|exact IH|exact I].
          destruct IH as (k2 & fr2 & s2 & R2 & _ & A2 & -> & EN2 & O2).
          apply code_here_drop in C2. change (set_ip (set_ip fr x) (fr_ip (set_ip fr x) + len bs')) with (set_ip fr (behind (set_ip fr x) bs')) in C2.
          apply (leads_from k2 _ 0 _ _ _ _ _ _ R2); [lia|].
          set (y := behind (set_ip fr x) bs') in *. rewrite app_assoc in C2. apply code_here_prefix in C2.
          exists 1%nat, (set_ip fr (behind fr (ts ++ ds ++ bs' ++ [j] ++ es ++ cs))), s2.
          split; [|split; [lia|split; [exact A2|split; [reflexivity|split; [exact EN2|exact O2]]]]].
          apply reach_path, reach_1. intro f. change (set_ip (set_ip fr x) y) with (set_ip fr y).
          rewrite (jump_ok p j _ es (set_ip fr y) s2 J eq_refl C2).
          -- assert (T : Z.to_N (Z.of_N (behind (set_ip fr y) (j :: es)) + signed_number es)
                         = behind fr (ts ++ ds ++ bs' ++ [j] ++ es ++ cs)) by (rewrite DE; unfold y, x; sizes).
             rewrite T. reflexivity.
          -- rewrite DE. unfold y, x. sizes.
        * (* else *)
          set (x := Z.to_N _).
          assert (X : x = behind fr (ts ++ ds ++ bs' ++ [j] ++ es)) by (unfold x; rewrite DD; sizes).
          assert (C3 : code_here (set_ip fr x) cs).
          { rewrite X. apply code_here_drop. rewrite <- !app_assoc. exact C. }
          replace (behind fr (ts ++ ds ++ bs' ++ [j] ++ es ++ cs)) with (behind (set_ip fr x) cs)
            by (rewrite X; unfold behind; cbn [fr_ip set_ip]; rewrite !len_app; lia).
          now apply IH.
      + assert (C1 : code_here fr (ts ++ ds)).
        { apply (code_here_prefix _ _ bs'). now rewrite <- app_assoc. }
        assert (C2 : code_here (set_ip fr (behind fr (ts ++ ds))) bs').
        { apply code_here_drop. now rewrite <- app_assoc. }
        destruct (IHc false ts _ ds fr s BO eq_refl C1 EN AW ltac:(sizes)) as (k & fr1 & s1 & R & _ & A1 & E1 & EN1 & O1).
        eapply arrives_from; [exact R|exact E1| |lia]. rewrite <- O1. subst fr1. destruct t; cbn [Bool.eqb].
        * replace (behind fr (ts ++ ds ++ bs')) with (behind (set_ip fr (behind fr (ts ++ ds))) bs') by sizes.
          now apply IH.
        * set (x := Z.to_N _). assert (X : behind fr (ts ++ ds ++ bs') = behind (set_ip fr x) []) by (unfold x; rewrite DD; sizes).
          rewrite X. apply (IH has []); auto; [constructor|].
          exists (firstn (N.to_nat x) (fr_code fr)), (skipn (N.to_nat x) (fr_code fr)). cbn [app fr_code set_ip fr_ip]. rewrite firstn_skipn. split; [reflexivity|].
          unfold len. rewrite firstn_length. assert (x <= len (fr_code fr)); [|unfold len in *; lia].
          assert (x = behind fr (ts ++ ds ++ bs')) as -> by (unfold x; rewrite DD; sizes).
          destruct C as (pre & post & CC & CI). rewrite CC. unfold behind. rewrite CI, !len_app. lia.
    - intros w en c a b r r' _ IHc AB has bs fr s SC C EN AW AP SM. pose proof (behind_small _ _ SM C) as SZ.
      inversion SC as [| | | |c' a' b' ts n ds bs' j k es cs BO LD SA J LE SB DD DE|c' a' ts n ds bs' BO LD SA DD| | | | | | |]; subst c'; subst.
      + assert (C1 : code_here fr (ts ++ ds)).
        { apply (code_here_prefix _ _ (bs' ++ [j] ++ es ++ cs)). now rewrite <- app_assoc. }
        eapply leads_abrupt; [eapply (IHc false ts _ ds fr s BO eq_refl C1 EN AW); sizes|exact AB].
      + assert (C1 : code_here fr (ts ++ ds)).
        { apply (code_here_prefix _ _ bs'). now rewrite <- app_assoc. }
        eapply leads_abrupt; [eapply (IHc false ts _ ds fr s BO eq_refl C1 EN AW); sizes|exact AB].
    - (* while, at the end *)
      intros w en c a w1 _ IHc has bs fr s SC C EN AW AP SM.
      destruct (while_loop c a has bs fr SC C SM) as (t & b & cs & L). eapply loop_entry; [exact L|].
      destruct (lp_test _ _ _ _ _ _ _ _ L w en s _ IHc EN AW) as (k & fr1 & s1 & R & _ & A1 & E1 & EN1 & O1).
      exists k, fr1, s1. split; [exact R|]. split; [lia|]. split; [exact A1|]. split; [exact E1|]. auto.
    - (* while, once more *)
      intros w en c a w1 en2 w2 r _ IHc _ IHa _ IHw has bs fr s SC C EN AW AP SM.
      destruct (while_loop c a has bs fr SC C SM) as (t & b & cs & L). eapply loop_entry; [exact L|].
      destruct (lp_test _ _ _ _ _ _ _ _ L w en s _ IHc EN AW) as (k & fr1 & s1 & R & _ & A1 & -> & EN1 & O1). cbn [Bool.eqb] in R.
      destruct (IHa has cs (set_ip fr b) s1 (lp_body _ _ _ _ _ _ _ _ L) (lp_here _ _ _ _ _ _ _ _ L) EN1 A1 AP SM)
        as (k2 & fr2 & s2 & R2 & _ & A2 & -> & EN2 & O2).
      destruct (lp_again _ _ _ _ _ _ _ _ L s2) as [k3 R3].
      apply (leads_from k _ 0 _ _ _ _ _ _ R); [lia|]. apply (leads_from k2 _ 0 _ _ _ _ _ _ R2); [lia|].
      apply (leads_from k3 _ 0 _ _ _ _ _ _ R3); [lia|]. rewrite <- O1, <- O2.
      eapply loop_back; [exact L|]. now apply IHw.
    - (* while, returning *)
      intros w en c a w1 o en2 w2 _ IHc _ IHa has bs fr s SC C EN AW AP SM.
      destruct (while_loop c a has bs fr SC C SM) as (t & b & cs & L). eapply loop_entry; [exact L|].
      destruct (lp_test _ _ _ _ _ _ _ _ L w en s _ IHc EN AW) as (k & fr1 & s1 & R & _ & A1 & -> & EN1 & O1). cbn [Bool.eqb] in R.
      apply (leads_from k _ 0 _ _ _ _ _ _ R); [lia|]. rewrite <- O1.
      exact (IHa has cs (set_ip fr b) s1 (lp_body _ _ _ _ _ _ _ _ L) (lp_here _ _ _ _ _ _ _ _ L) EN1 A1 AP SM).
    - intros w en c a w1 r r' _ IHc _ IHa AB has bs fr s SC C EN AW AP SM.
      destruct (while_loop c a has bs fr SC C SM) as (t & b & cs & L). eapply loop_entry; [exact L|].
      destruct (lp_test _ _ _ _ _ _ _ _ L w en s _ IHc EN AW) as (k & fr1 & s1 & R & _ & A1 & -> & EN1 & O1). cbn [Bool.eqb] in R.
      apply (leads_from k _ 0 _ _ _ _ _ _ R); [lia|].
      eapply leads_abrupt; [exact (IHa has cs (set_ip fr b) s1 (lp_body _ _ _ _ _ _ _ _ L) (lp_here _ _ _ _ _ _ _ _ L) EN1 A1 AP SM)|exact AB].
    - intros w en c a r r' _ IHc AB has bs fr s SC C EN AW AP SM.
      destruct (while_loop c a has bs fr SC C SM) as (t & b & cs & L). eapply loop_entry; [exact L|].
      eapply leads_abrupt; [exact (lp_test _ _ _ _ _ _ _ _ L w en s _ IHc EN AW)|exact AB].
    - (* return *)
      intros w en e z w' _ IH has bs fr s SC C EN AW AP SM. inversion SC as [| | | | | | | |e' bs' HR XC| | | |]; subst.
      pose proof (code_here_prefix _ _ _ C) as C1. apply code_here_drop in C.
      destruct (IH bs' fr s XC C1 EN AW) as (k & fr1 & s1 & R & _ & A1 & Z & -> & EN1 & O1).
      exists k. eexists. exists s1. split; [exact R|]. split; [lia|]. split; [exact A1|]. split; [eexists; reflexivity|].
      split; [exact C|]. split; [split; [reflexivity|exact Z]|]. split; [exact EN1|exact O1].
    - intros w en e r r' _ IH AB has bs fr s SC C EN AW AP SM. inversion SC as [| | | | | | | |e' bs' HR XC| | | |]; subst.
      apply code_here_prefix in C. eapply leads_abrupt; [exact (IH bs' fr s XC C EN AW)|exact AB].
    - intros w en has bs fr s SC C EN AW AP SM. inversion SC; subst.
      exists 0%nat, fr, s. split; [constructor|]. split; [lia|]. split; [exact AW|]. split; [exists (fr_ip fr); symmetry; apply set_ip_same|].
      split; [exact C|]. split; [reflexivity|]. split; [exact EN|reflexivity].
    - intros. eapply do_leads; eauto.
    - intros w en g es zs w1 r r' _ IH _ IA AB has bs fr s SC C EN AW AP SM.
      inversion SC as [| | | | | | | | | |g' f es' bs' t EF HR CN XC NM| |]; subst. eapply call_abrupt; eauto.
    - intros w en g es r r' _ IH AB has bs fr s SC C EN AW AP SM.
      inversion SC as [| | | | | | | | | |g' f es' bs' t EF HR CN XC NM| |]; subst.
      apply code_here_prefix in C. eapply leads_abrupt; [exact (proj1 (IH bs' fr s XC C EN AW))|exact AB].
    - (* pop *)
      intros w en e z w' _ IH has bs fr s SC C EN AW AP SM. inversion SC as [| | | | | | | | | | |e' bs' XC|]; subst.
      pose proof (code_here_prefix _ _ _ C) as C1. apply code_here_drop in C.
      destruct (IH bs' fr s XC C1 EN AW) as (k & fr1 & s1 & R & _ & A1 & Z & -> & EN1 & O1).
      apply (leads_from k _ 0 _ _ _ _ _ _ R); [lia|].
      exists 1%nat, (set_ip fr (behind fr (bs' ++ [x26]))), (set_operands s1 (x_operands s)).
      split; [|split; [lia|split; [now apply at_operands|split; [reflexivity|split; [exact EN1|reflexivity]]]]].
      apply reach_path, reach_1. intro f. step_at C. unfold next, pop, try_pop, unwrap, bind. rewrite O1. unfold ret.
      do 2 f_equal. rewrite set_ip_twice. f_equal. sizes.
    - intros w en e r r' _ IH AB has bs fr s SC C EN AW AP SM. inversion SC as [| | | | | | | | | | |e' bs' XC|]; subst.
      apply code_here_prefix in C. eapply leads_abrupt; [exact (IH bs' fr s XC C EN AW)|exact AB].
    - intros. now apply print_leads.
    - repeat intro. exact I.
  Qed.

  (** ** What the interpreter finishes has an outcome *)

  Lemma normal_or {A} B (r : outcome A) : (exists a w, r = Normal a w) \/ exists r' : outcome B, abrupt r r'.
  Proof. destruct r as [a w| |]; [eauto|right; exists Panics; left; auto|right; exists Unlaid; right; auto]. Qed.

  Definition halt_exp (n : nat) (e : exp) : Prop :=
    forall bs fr s w en, exp_code P (resolved V ms (fr_assembly fr)) e bs -> code_here fr bs -> env_at fr s en -> at_world s w ->
      run n p fr s <> NoFuel -> exists r, evals p P limit w en e r.
  Definition halt_exps (n : nat) (es : exps) : Prop :=
    forall bs fr s w en, exps_code P (resolved V ms (fr_assembly fr)) es bs -> code_here fr bs -> env_at fr s en -> at_world s w ->
      run n p fr s <> NoFuel -> exists r, evals_all p P limit w en es r.
  Definition halt_apply (n : nat) : Prop :=
    forall t fr s w g zs f l, nth_error P g = Some f -> for_function (resolved V ms (fr_assembly fr)) t g -> code_here fr (x28 :: t) ->
      Forall int32 zs -> List.length zs = fn_params f -> at_world s w -> x_operands s = rev (map (VInt I32) zs) ++ l ->
      run n p fr s <> NoFuel -> exists r, applies p P limit w g zs r.
  Definition halt_test (n : nat) (c : test) : Prop :=
    forall want ts k ds fr s w en, test_code P (resolved V ms (fr_assembly fr)) c want ts k -> code_here fr (ts ++ ds) -> env_at fr s en ->
      at_world s w -> run n p fr s <> NoFuel -> exists r, tests p P limit w en c r.
  Definition halt_com (n : nat) (c : com) : Prop :=
    forall has bs fr s w en, com_code P (resolved V ms (fr_assembly fr)) has c bs -> code_here fr bs -> env_at fr s en -> at_world s w ->
      apart (fr_params fr) (fr_locals fr) -> small fr -> run n p fr s <> NoFuel -> exists r, does p P limit w en c r.
  Definition below (n : nat) : Prop := forall m c, (m < n)%nat -> halt_com m c.
  Lemma below_less m n : below n -> (m <= n)%nat -> below m.
  Proof. intros B L k c Lk. apply B. lia. Qed.

  Lemma apply_halts n : below n -> halt_apply n.
  Proof.
    intros B t fr s w g zs f l EF NM C FA La AW O R.
    destruct (N.le_gt_cases (w_cells (enter w f)) limit) as [ME|ME].
    2: { exists Unlaid. eapply ap_no_room; [exact EF|]. unfold may_enter. lia. }
    destruct (entry p V P ms limit G CP g f t fr s zs l w EF NM C FA La AW ME O) as
      (m & c & s1 & frc & sc & lv & E1 & EN1 & HO1 & _ & U1 & SD & INV & _).
    destruct n as [|n]; [now destruct R|]. cbn [run] in R. unfold bind in R. rewrite E1, INV in R.
    assert (RC : run n p frc sc <> NoFuel) by (intro X; rewrite X in R; now apply R).
    destruct (B n (fn_body f) ltac:(lia) (fn_result f) (fr_code frc) frc sc (enter w f) (start zs (fn_locals f))) as [r H]; auto.
    - exact (sd_code _ _ _ _ _ _ _ _ _ _ _ SD).
    - exact (sd_here _ _ _ _ _ _ _ _ _ _ _ SD).
    - exact (sd_env _ _ _ _ _ _ _ _ _ _ _ SD).
    - exact (sd_world _ _ _ _ _ _ _ _ _ _ _ SD).
    - exact (sd_apart _ _ _ _ _ _ _ _ _ _ _ SD).
    - exact (sd_small _ _ _ _ _ _ _ _ _ _ _ SD).
    - destruct r as [[en|o en] w'| |].
      + exists Panics. eapply ap_onward; eauto.
      + eexists. eapply ap_back; eauto.
      + exists Panics. eapply ap_no; eauto. left. auto.
      + exists Unlaid. eapply ap_no; eauto. right. auto.
  Qed.

  Lemma args_halt n es bs t fr s w en g f : below n ->
    (forall n, below n -> halt_exps n es) -> nth_error P g = Some f -> count es = fn_params f ->
    exps_code P (resolved V ms (fr_assembly fr)) es bs -> for_function (resolved V ms (fr_assembly fr)) t g -> code_here fr (bs ++ [x28] ++ t) ->
    env_at fr s en -> at_world s w -> run n p fr s <> NoFuel ->
    exists r, evals_all p P limit w en es r /\
      match r with Normal zs w1 => exists q, applies p P limit w1 g zs q /\ (forall o w2, q = Normal o w2 -> answers (fn_result f) o) | _ => True end.
  Proof.
    intros B IH EF CN XE NM C EN AW R. apply call_code_here in C. destruct C as [C1 C2].
    destruct (IH n B bs fr s w en XE C1 EN AW R) as [r H]. exists r. split; [exact H|]. destruct r as [zs w1| |]; [|exact I|exact I].
    destruct (proj1 (proj2 meaning_ok) _ _ _ _ H bs fr s XE C1 EN AW) as [(k & fr1 & s1 & R1 & _ & A1 & FZ & -> & EN1 & O1) LZ].
    rewrite CN in LZ. destruct (path_rest p _ _ _ _ _ R1 n R) as [LE RR]. rewrite RR in R.
    destruct (apply_halts (n - k)%nat (below_less (n - k)%nat n B ltac:(lia)) t (set_ip fr (fr_ip fr + len bs)) s1 w1 g zs f (x_operands s) EF NM C2 FZ LZ A1 O1 R) as [q Q].
    exists q. split; [exact Q|]. intros o w2 ->.
    pose proof (proj1 (proj2 (proj2 meaning_ok)) _ _ _ _ Q t (set_ip fr (fr_ip fr + len bs)) s1 f (x_operands s) en EF NM C2 FZ LZ EN1 A1 O1) as (k2 & fr2 & s2 & _ & _ & _ & AN & _).
    exact AN.
  Qed.

  Lemma exps_halt : (forall e n, below n -> halt_exp n e) /\ (forall es n, below n -> halt_exps n es).
  Proof.
    apply exp_exps_ind.
    - intros z n B bs fr s w en XC C EN AW R. eauto using evals.
    - intros a i n B bs fr s w en XC C EN AW R. eauto using evals.
    - intros o e IH n B bs fr s w en XC C EN AW R. inversion XC as [| |o' e' bs' i U XE| |]; subst.
      apply code_here_prefix in C. destruct (IH n B bs' fr s w en XE C EN AW R) as [r H].
      destruct (normal_or Z r) as [(z & w1 & ->)|[r' AB]]; eauto using evals.
    - intros o a IHa b IHb n B bs fr s w en XC C EN AW R. inversion XC as [| | |o' e1' e2' bs' cs is U XE1 XE2|]; subst.
      pose proof (code_here_prefix _ _ _ C) as C1. apply code_here_drop in C. apply code_here_prefix in C.
      destruct (IHa n B bs' fr s w en XE1 C1 EN AW R) as [r H].
      destruct (normal_or Z r) as [(z & w1 & ->)|[r' AB]]; [|eauto using evals].
      destruct (proj1 meaning_ok _ _ _ _ H bs' fr s XE1 C1 EN AW) as (k & fr1 & s1 & R1 & _ & A1 & X & -> & EN1 & O1).
      destruct (path_rest p _ _ _ _ _ R1 n R) as [LE RR]. rewrite RR in R.
      destruct (IHb (n - k)%nat (below_less (n - k)%nat n B ltac:(lia)) cs (set_ip fr (fr_ip fr + len bs')) s1 w1 en XE2 C EN1 A1 R) as [r H2].
      destruct (normal_or Z r) as [(z2 & w2 & ->)|[r' AB]]; eauto using evals.
    - intros g es IH n B bs fr s w en XC C EN AW R. inversion XC as [| | | |g' f es' bs' t EF HR CN XE NM]; subst.
      destruct (args_halt n es bs' t fr s w en g f B IH EF CN XE NM C EN AW R) as (r & H & Q).
      destruct (normal_or Z r) as [(zs & w1 & ->)|[r' AB]]; [|eauto using evals].
      destruct Q as (q & Q & AN). destruct (normal_or Z q) as [(o & w2 & ->)|[r' AB]]; [|eauto using evals].
      specialize (AN o w2 eq_refl). destruct o as [z|]; [eauto using evals|]. cbn in AN. congruence.
    - intros n B bs fr s w en XC C EN AW R. eauto using evals_all.
    - intros e IHe es IHs n B bs fr s w en XC C EN AW R. inversion XC as [|e' es' bs' cs XE XS]; subst.
      pose proof (code_here_prefix _ _ _ C) as C1. apply code_here_drop in C.
      destruct (IHe n B bs' fr s w en XE C1 EN AW R) as [r H].
      destruct (normal_or (list Z) r) as [(z & w1 & ->)|[r' AB]]; [|eauto using evals_all].
      destruct (proj1 meaning_ok _ _ _ _ H bs' fr s XE C1 EN AW) as (k & fr1 & s1 & R1 & _ & A1 & X & -> & EN1 & O1).
      destruct (path_rest p _ _ _ _ _ R1 n R) as [LE RR]. rewrite RR in R.
      destruct (IHs (n - k)%nat (below_less (n - k)%nat n B ltac:(lia)) cs (set_ip fr (fr_ip fr + len bs')) s1 w1 en XS C EN1 A1 R) as [r H2].
      destruct (normal_or (list Z) r) as [(z2 & w2 & ->)|[r' AB]]; eauto using evals_all.
  Qed.

  Lemma test_halts c : forall n, below n -> halt_test n c.
  Proof.
    induction c as [e|r a b|c IH]; intros n B want ts k ds fr s w en TC C EN AW R.
    - inversion TC as [e' bs i n' zero XC ZC| |]; subst. apply code_here_prefix, code_here_prefix in C.
      destruct (proj1 exps_halt e n B bs fr s w en XC C EN AW R) as [r H].
      destruct (normal_or bool r) as [(z & w1 & ->)|[r' AB]]; eauto using tests.
    - inversion TC as [|r' a' b' bs cs i n' rel want' XA XB BC HR|]; subst.
      apply code_here_prefix in C. pose proof (code_here_prefix _ _ _ C) as C1. apply code_here_drop, code_here_prefix in C.
      destruct (proj1 exps_halt a n B bs fr s w en XA C1 EN AW R) as [q H].
      destruct (normal_or bool q) as [(z & w1 & ->)|[q' AB]]; [|eauto using tests].
      destruct (proj1 meaning_ok _ _ _ _ H bs fr s XA C1 EN AW) as (k' & fr1 & s1 & R1 & _ & A1 & X & -> & EN1 & O1).
      destruct (path_rest p _ _ _ _ _ R1 n R) as [LE RR]. rewrite RR in R.
      destruct (proj1 exps_halt b (n - k')%nat (below_less (n - k')%nat n B ltac:(lia)) cs (set_ip fr (fr_ip fr + len bs)) s1 w1 en XB C EN1 A1 R) as [q H2].
      destruct (normal_or bool q) as [(z2 & w2 & ->)|[q' AB]]; eauto using tests.
    - inversion TC as [| |c' want' ts' n' TC']; subst.
      destruct (IH n B _ _ _ _ _ _ _ _ TC' C EN AW R) as [r H].
      destruct (normal_or bool r) as [(b & w1 & ->)|[r' AB]]; eauto using tests.
  Qed.

  Theorem com_halts n : forall c, halt_com n c.
  Proof.
    induction n as [n OUT] using lt_wf_ind.
    assert (B : below n) by (intros m c L; now apply OUT).
    assert (ANY : forall m c, (m <= n)%nat -> halt_com n c -> halt_com m c).
    { intros m c L H. destruct (Nat.eq_dec m n) as [->|]; [exact H|]. apply OUT. lia. }
    induction c as [|arg i e|a IHa b IHb|c a IHa b IHb|c a IHa|[e|]|g es|e|text]; intros has bs fr s w en SC C EN AW AP SM R.
    - eauto using does.
    - inversion SC as [| |arg' i' e' bs' cs XC STC| | | | | | | | | |]; subst. apply code_here_prefix in C.
      destruct (proj1 exps_halt e n B bs' fr s w en XC C EN AW R) as [r H].
      destruct (normal_or progress r) as [(z & w1 & ->)|[r' AB]]; [|eauto using does].
      destruct (exists_var en arg i) eqn:X; eauto using does.
    - inversion SC as [| | |a' b' bs' cs SA SB| | | | | | | | |]; subst.
      pose proof (code_here_prefix _ _ _ C) as C1. apply code_here_drop in C.
      destruct (IHa has bs' fr s w en SA C1 EN AW AP SM R) as [r H].
      destruct (normal_or progress r) as [([en1|o en1] & w1 & ->)|[r' AB]]; [|eauto using does|eauto using does].
      destruct (proj2 (proj2 (proj2 (proj2 meaning_ok))) _ _ _ _ H has bs' fr s SA C1 EN AW AP SM) as (k & fr1 & s1 & R1 & _ & A1 & -> & EN1 & O1).
      destruct (path_rest p _ _ _ _ _ R1 n R) as [LE RR]. rewrite RR in R.
      destruct (ANY (n - k)%nat b ltac:(lia) IHb has cs (set_ip fr (behind fr bs')) s1 w1 en1 SB C EN1 A1 AP SM R) as [r H2].
      eauto using does.
    - pose proof (behind_small _ _ SM C) as SZ.
      inversion SC as [| | | |c' a' b' ts m ds bs' j k es cs BO LD SA J LE SB DD DE|c' a' ts m ds bs' BO LD SA DD| | | | | | |]; subst c'; subst.
      + assert (C1 : code_here fr (ts ++ ds)).
        { apply (code_here_prefix _ _ (bs' ++ [j] ++ es ++ cs)). now rewrite <- app_assoc. }
        destruct (test_halts c n B _ _ _ _ fr s w en BO C1 EN AW R) as [r H].
        destruct (normal_or progress r) as [(b0 & w1 & ->)|[r' AB]]; [|eauto using does].
        destruct (proj1 (proj2 (proj2 (proj2 meaning_ok))) _ _ _ _ H false ts _ ds fr s BO eq_refl C1 EN AW ltac:(sizes)) as (k & fr1 & s1 & R1 & _ & A1 & -> & EN1 & O1).
        destruct (path_rest p _ _ _ _ _ R1 n R) as [LE RR]. rewrite RR in R.
        assert (Q : exists r, does p P limit w1 en (if b0 then a else b) r); [|destruct Q; eauto using does].
        destruct b0; cbn [Bool.eqb] in *.
        * refine (ANY (n - k)%nat a ltac:(lia) IHa has bs' (set_ip fr (behind fr (ts ++ ds))) s1 w1 en SA _ EN1 A1 AP SM R).
          apply (code_here_prefix _ _ ([j] ++ es ++ cs)). apply code_here_drop. rewrite <- !app_assoc. exact C.
        * assert (X : Z.to_N (Z.of_N (behind fr (ts ++ ds)) + signed_number ds) = behind fr (ts ++ ds ++ bs' ++ [j] ++ es)) by (rewrite DD; sizes).
          rewrite X in R. refine (ANY (n - k)%nat b ltac:(lia) IHb has cs (set_ip fr (behind fr (ts ++ ds ++ bs' ++ [j] ++ es))) s1 w1 en SB _ EN1 A1 AP SM R).
          apply code_here_drop. rewrite <- !app_assoc. exact C.
      + assert (C1 : code_here fr (ts ++ ds)).
        { apply (code_here_prefix _ _ bs'). now rewrite <- app_assoc. }
        destruct (test_halts c n B _ _ _ _ fr s w en BO C1 EN AW R) as [r H].
        destruct (normal_or progress r) as [(b0 & w1 & ->)|[r' AB]]; [|eauto using does].
        destruct (proj1 (proj2 (proj2 (proj2 meaning_ok))) _ _ _ _ H false ts _ ds fr s BO eq_refl C1 EN AW ltac:(sizes)) as (k & fr1 & s1 & R1 & _ & A1 & -> & EN1 & O1).
        destruct (path_rest p _ _ _ _ _ R1 n R) as [LE RR]. rewrite RR in R.
        assert (Q : exists r, does p P limit w1 en (if b0 then a else CSkip) r); [|destruct Q; eauto using does].
        destruct b0; cbn [Bool.eqb] in *; [|eauto using does].
        refine (ANY (n - k)%nat a ltac:(lia) IHa has bs' (set_ip fr (behind fr (ts ++ ds))) s1 w1 en SA _ EN1 A1 AP SM R).
        apply code_here_drop. rewrite <- !app_assoc. exact C.
    - destruct (while_loop c a has bs fr SC C SM) as (tst & body & cs & L).
      assert (H : exists m, (m <= n)%nat /\ run m p (set_ip fr tst) s <> NoFuel).
      { destruct (lp_entry _ _ _ _ _ _ _ _ L s) as [->|[_ ST]].
        - exists n. rewrite set_ip_same. auto.
        - destruct (reach_rest p _ _ _ _ _ n (reach_1 p _ _ _ _ ST) R) as [LE RR]. rewrite RR in R. exists (n - 1)%nat. split; [lia|exact R]. }
      destruct H as (m & LM & RM). clear R.
      destruct (lp_test_code _ _ _ _ _ _ _ _ L) as (want & ts & n' & ds & TC & C1).
      destruct (test_halts c m (below_less _ _ B LM) want ts n' ds (set_ip fr tst) s w en TC C1 EN AW RM) as [r H].
      destruct (normal_or progress r) as [(b0 & w1 & ->)|[r' AB]]; [|eauto using does].
      destruct b0; [|eauto using does].
      destruct (lp_test _ _ _ _ _ _ _ _ L w en s _ (proj1 (proj2 (proj2 (proj2 meaning_ok))) _ _ _ _ H) EN AW)
        as (k & fr1 & s1 & R1 & L2 & A1 & -> & EN1 & O1). cbn [Bool.eqb] in R1.
      destruct (path_rest p _ _ _ _ _ R1 m RM) as [LE RR]. rewrite RR in RM.
      destruct (ANY (m - k)%nat a ltac:(lia) IHa has cs (set_ip fr body) s1 w1 en (lp_body _ _ _ _ _ _ _ _ L) (lp_here _ _ _ _ _ _ _ _ L) EN1 A1 AP SM RM) as [r Hf].
      destruct (normal_or progress r) as [([en2|o en2] & w2 & ->)|[r' AB]]; [|eauto using does|eauto using does].
      destruct (proj2 (proj2 (proj2 (proj2 meaning_ok))) _ _ _ _ Hf has cs (set_ip fr body) s1 (lp_body _ _ _ _ _ _ _ _ L) (lp_here _ _ _ _ _ _ _ _ L) EN1 A1 AP SM)
        as (k1 & fr2 & s2 & RE & _ & A2 & -> & EN2 & O2).
      destruct (path_rest p _ _ _ _ _ RE _ RM) as [LE1 RR1]. rewrite RR1 in RM.
      destruct (lp_again _ _ _ _ _ _ _ _ L s2) as [k2 R2]. rewrite set_ip_twice in RM.
      destruct (path_rest p _ _ _ _ _ R2 _ RM) as [LE2 RR2]. rewrite RR2 in RM.
      assert (Q : exists m', (m' < n)%nat /\ run m' p fr s2 <> NoFuel).
      { destruct (lp_entry _ _ _ _ _ _ _ _ L s2) as [->|[_ ST]].
        - rewrite set_ip_same in RM. exists (m - k - k1 - k2)%nat. split; [lia|exact RM].
        - exists (S (m - k - k1 - k2))%nat. split; [lia|].
          change (S (m - k - k1 - k2)) with (1 + (m - k - k1 - k2))%nat.
          rewrite (reach_run p 1 _ _ _ _ (m - k - k1 - k2)%nat (reach_1 p _ _ _ _ ST)). exact RM. }
      destruct Q as (m' & LM' & RM').
      destruct (OUT m' LM' (CWhile c a) has bs fr s2 w2 en2 SC C EN2 A2 AP SM RM') as [r Hf']. eauto using does.
    - inversion SC as [| | | | | | | |e' bs' HR XC| | | |]; subst. apply code_here_prefix in C.
      destruct (proj1 exps_halt e n B bs' fr s w en XC C EN AW R) as [r H].
      destruct (normal_or progress r) as [(z & w1 & ->)|[r' AB]]; eauto using does.
    - eauto using does.
    - inversion SC as [| | | | | | | | | |g' f es' bs' t EF HR CN XC NM| |]; subst.
      destruct (args_halt n es bs' t fr s w en g f B (proj2 exps_halt es) EF CN XC NM C EN AW R) as (r & H & Q).
      destruct (normal_or progress r) as [(zs & w1 & ->)|[r' AB]]; [|eauto using does].
      destruct Q as (q & Q & AN). destruct (normal_or progress q) as [(o & w2 & ->)|[r' AB]]; [|eauto using does].
      specialize (AN o w2 eq_refl). destruct o as [z|]; [|eauto using does]. destruct AN. congruence.
    - inversion SC as [| | | | | | | | | | |e' bs' XC|]; subst. apply code_here_prefix in C.
      destruct (proj1 exps_halt e n B bs' fr s w en XC C EN AW R) as [r H].
      destruct (normal_or progress r) as [(z & w1 & ->)|[r' AB]]; eauto using does.
    - destruct (N.le_gt_cases (w_cells (after_print w text)) limit) as [M1|M1];
        [destruct (N.lt_ge_cases (w_bytes (after_print w text)) (2 ^ 62)) as [M2|M2]|].
      + eexists. apply do_print. split; assumption.
      + exists Unlaid. apply do_print_no_room. intros [_ X]. lia.
      + exists Unlaid. apply do_print_no_room. intros [X _]. lia.
  Qed.
End Calls.

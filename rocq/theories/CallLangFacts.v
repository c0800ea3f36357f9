(** The interpreter on compiled programs of SpecCalls. *)
From Coq Require Import NArith ZArith String List Bool Lia Wf_nat.
From Coq.Strings Require Import Byte.
From Verif Require Import Base BaseFacts Metadata Utf SpecUtf Runtime Value Opcodes Gc Interp SpecBytes SpecExec SpecFrames SpecStack SpecRuntime
  SpecTypes SpecHeap SpecLang InterpFacts InterpInv RuntimeInv FrameFacts TraceFacts VmFacts CallFacts StackFacts LangFacts LangProofs PathFacts
  PropsValue PropsCompare PropsDecode PropsHeap PropsLang SpecCalls.
Import ListNotations.
Open Scope N_scope.

Lemma ret_none f p fr s : consistent p (x_vm s) -> code_here fr [x2a] -> results (x_vm s) (fr_method fr) 0 ->
  step f p fr s = Ok (OReturn None) s.
Proof.
  intros W C R. step_at C. unfold ret_op. unfold bind at 1, on_vm at 1, get_type. cbn [fr_method set_ip].
  replace (set_vm s (x_vm s)) with s by now destruct s.
  pose proof (map_ok _ _ W (bytes_of_string "System.Void")) as MO. inversion R as [ti Et Hn|].
  destruct (map_get bytes_eqb (bytes_of_string "System.Void") (c_type_map (x_vm s))) as [t|] eqn:Em.
  - destruct MO as [(tj & Ej & Nj) _]. unfold bind at 1, on_vm, type_eq, bind, the_type. rewrite Et, Ej, Hn, Nj.
    unfold ret at 1. rewrite bytes_eqb_refl. replace (set_vm s (x_vm s)) with s by now destruct s. reflexivity.
  - exfalso. apply (MO ti); [eapply nth_error_In; eauto|exact Hn].
Qed.

Definition as_value (o : option Z) : option value := option_map (VInt I32) o.
Definition answers (has : bool) (o : option Z) : Prop :=
  match o with Some z => has = true /\ int32 z | None => has = false end.

Lemma ret_run f p fr s has o base : consistent p (x_vm s) -> code_here fr [x2a] ->
  results (x_vm s) (fr_method fr) (if has : bool then 1 else 0) -> answers has o ->
  x_operands s = then_push base (as_value o) -> step f p fr s = Ok (OReturn (as_value o)) (set_operands s base).
Proof.
  intros W C R A O. destruct o as [z|]; cbn [answers as_value option_map then_push] in *.
  - destruct A as [-> Z]. now apply ret_value.
  - subst has. rewrite <- O, set_operands_same. now apply ret_none.
Qed.

Lemma forall2_nth {A B} (R : A -> B -> Prop) l l' i x : Forall2 R l l' -> nth_error l i = Some x ->
  exists y, nth_error l' i = Some y /\ R x y.
Proof.
  intro F. revert i. induction F as [|a b l l' H F IH]; intros [|i] E; try discriminate; [|now apply IH].
  injection E as <-. exists b. auto.
Qed.

Section Calls.
  Variables (p : profile) (V : vm) (P : list function) (ms : list method_info) (limit : N) (G : nat).
  Hypothesis W : consistent p V.
  Hypothesis CP : compiled_program V P ms.

  Record at_world (s : machine) (w : world) : Prop := mkAt {
    aw_vm : x_vm s = set_output V (c_output V ++ w_text w);
    aw_cells : in_use s = w_cells w;
    aw_room : room s = limit;
    aw_gen : k_gen (x_frames s) = G;
    aw_bytes : len (memory s) = w_bytes w;
    aw_modest : modest s }.

  Lemma at_operands s w l : at_world s w -> at_world (set_operands s l) w.
  Proof. intros []. constructor; assumption. Qed.
  Lemma at_consistent s w : at_world s w -> consistent p (x_vm s).
  Proof. intros []. rewrite aw_vm0. exact (proj1 (proj2 (set_output_prints p V (w_text w)) W)). Qed.
  Lemma at_denotes s w a tok m : at_world s w -> denotes V a tok m -> denotes (x_vm s) a tok m.
  Proof. intros [] D. rewrite aw_vm0. exact D. Qed.
  Lemma at_results s w m n : at_world s w -> results V m n -> results (x_vm s) m n.
  Proof. intros [] R. rewrite aw_vm0. destruct R as [ti E H|ti E H]; [apply (no_result _ m ti)|apply (one_result _ m ti)]; assumption. Qed.

  Lemma function_method g f : nth_error P g = Some f -> exists m, nth_error ms g = Some m /\ compiled_function V P ms f m.
  Proof.
    exact (forall2_nth _ _ _ _ _ CP).
  Qed.

  (** ** Entering a function *)

  Lemma env_grows fr s s' en : k_gen (x_frames s') = k_gen (x_frames s) -> x_host s' = x_host s ->
    (forall i, i < in_use s -> nth_error (k_cells (x_frames s')) (N.to_nat i) = nth_error (k_cells (x_frames s)) (N.to_nat i)) ->
    env_at fr s en -> env_at fr s' en.
  Proof.
    intros EG EH EC [EA EL].
    assert (K : forall c i v, variable s c i v -> variable s' c i v).
    { intros [|g b n] i v; cbn [variable]; [now rewrite EH|]. intros (A & B & C). split; [congruence|]. split; [exact B|].
      rewrite EC; [exact C|]. assert (N.to_nat (b + i) < List.length (k_cells (x_frames s)))%nat by (apply nth_error_Some; congruence).
      unfold in_use, len. lia. }
    split.
    - intros i z H. destruct (EA i z H). auto.
    - intros i o H. destruct (EL i o H) as (v & A & B). eauto.
  Qed.

  (** What is known when function [f] starts with arguments [zs]. *)
  Record started (f : function) (zs : list Z) (w : world) (l : list value) (fr : frame) (s : machine) : Prop := mkStarted {
    sd_ip : fr_ip fr = 0;
    sd_small : small fr;
    sd_apart : apart (fr_params fr) (fr_locals fr);
    sd_code : com_code P (resolved V ms (fr_assembly fr)) (fn_result f) (fn_body f) (fr_code fr);
    sd_env : env_at fr s (start zs (fn_locals f));
    sd_world : at_world s w;
    sd_result : results V (fr_method fr) (if fn_result f then 1 else 0);
    sd_operands : x_operands s = l }.
  Lemma sd_here f zs w l fr s : started f zs w l fr s -> code_here fr (fr_code fr).
  Proof. intro H. exists [], []. rewrite app_nil_r. split; [reflexivity|]. exact (sd_ip _ _ _ _ _ _ H). Qed.

  Definition completed {A B} (r : res machine A) (k : machine -> machine) (q : A -> B) : res machine B :=
    match r with Ok a s => Ok (q a) (k s) | Err e s => Err e (k s) | Panic w => Panic w | Ub w => Ub w | NoFuel => NoFuel end.

  Lemma locals_env n s s1 c : stackalloc (N.of_nat n) s = Ok c s1 -> forall i, (N.to_nat i < n)%nat ->
    variable s1 c i zero_cell.
  Proof.
    intros E i L. destruct (stackalloc_run (N.of_nat n) s) as (s2 & E2 & EC & _). rewrite E2 in E. injection E as <- <-.
    split; [reflexivity|]. split; [lia|]. rewrite EC, nth_error_app2 by (unfold len; lia).
    rewrite (nth_error_nth' _ zero_cell) by (rewrite repeat_length; unfold len; lia). now rewrite nth_repeat.
  Qed.

  Lemma entry g f t fr s zs l w : nth_error P g = Some f -> names V ms (fr_assembly fr) t g -> code_here fr (x28 :: t) ->
    Forall int32 zs -> List.length zs = fn_params f -> at_world s w -> may_enter limit w f ->
    x_operands s = rev (map (VInt I32) zs) ++ l ->
    exists m c s1 frc sc lv,
      (forall f, step f p fr s = Ok (OCall m c None (set_ip fr (fr_ip fr + 5))) s1) /\
      (forall en, env_at fr s en -> env_at fr s1 en) /\ x_host s1 = x_host s /\
      (exists b n, c = CFrames G b n /\ in_use s <= b) /\ in_use s1 = w_cells w + N.of_nat (fn_params f) /\
      started f zs (enter w f) l frc sc /\
      (forall go, invoke go m c s1 = completed (go frc sc) lv (fun v => v)) /\
      (forall s', x_vm (lv s') = x_vm s' /\ x_heap (lv s') = x_heap s' /\ x_operands (lv s') = x_operands s' /\
         k_gen (x_frames (lv s')) = k_gen (x_frames s') /\ k_cap (x_frames (lv s')) = k_cap (x_frames s')) /\
      in_use s1 <= limit /\
      (forall i, i < in_use s -> nth_error (k_cells (x_frames s1)) (N.to_nat i) = nth_error (k_cells (x_frames s)) (N.to_nat i)) /\
      k_gen (x_frames s1) = G.
  Proof.
    intros EF (L4 & m & Em & D) C FA La AW ME O.
    destruct (function_method g f EF) as (m' & Em' & [ST PR RS (ti & ai & b & Et & Ea & IM & LN & SM & SC)]).
    assert (m' = m) as -> by congruence. clear Em'.
    assert (AM : arguments m = fn_params f) by (unfold arguments; rewrite ST, PR; lia).
    unfold may_enter, enter in ME. cbn [w_cells] in ME.
    destruct (call_run p fr s t m (map (VInt I32) zs) l C L4 (at_denotes _ _ _ _ _ AW D) O) as
      (s1 & E1 & VA & O1 & V1 & H1 & HO1 & G1 & R1 & U1 & K1); [rewrite map_length; congruence| |].
    { rewrite AM, (aw_cells _ _ AW), (aw_room _ _ AW). lia. }
    cbv zeta in E1. rewrite (aw_gen _ _ AW), (aw_cells _ _ AW), AM in *. rewrite (aw_room _ _ AW) in R1.
    set (c := CFrames G (w_cells w) (N.of_nat (fn_params f))) in *.
    destruct (stackalloc_run (len (b_locals b)) (set_alloc s1 0)) as (s2 & E2 & EC & EAl & EH & EV & EHp & EO & EG).
    cbn [set_alloc x_frames x_host x_vm x_heap x_operands] in *.
    assert (LB : len (b_locals b) = N.of_nat (fn_locals f)) by (unfold len; lia).
    unfold room in *. change (in_use s1) with (len (k_cells (x_frames s1))) in *. rewrite R1, U1, LB in EG.
    destruct (N.ltb_spec limit (w_cells w + N.of_nat (fn_params f) + N.of_nat (fn_locals f))) as [X|_]; [lia|].
    destruct EG as [EG EK].
    set (frc := mkFrame m (ti_assembly ti) (b_code b) 0 (CFrames (k_gen (x_frames s2)) (len (k_cells (x_frames s1))) (len (b_locals b))) c).
    exists m, c, s1, frc, s2.
    exists (fun s' => set_alloc (set_frames s' (mkFrames (k_gen (x_frames s')) (k_cap (x_frames s'))
                        (firstn (N.to_nat (len (k_cells (x_frames s')) - x_alloc s')) (k_cells (x_frames s'))))) (x_alloc s1)).
    assert (K1' : forall i, i < in_use s -> nth_error (k_cells (x_frames s1)) (N.to_nat i) = nth_error (k_cells (x_frames s)) (N.to_nat i))
      by (intros i Hi; apply K1; unfold in_use in Hi; rewrite <- (aw_cells _ _ AW); exact Hi).
    split; [exact E1|]. split.
    { intros en EN. eapply (env_grows fr s s1); [rewrite G1; symmetry; exact (aw_gen _ _ AW)|exact HO1|exact K1'|exact EN]. }
    split; [exact HO1|]. split; [exists (w_cells w), (N.of_nat (fn_params f)); split; [reflexivity|rewrite <- (aw_cells _ _ AW); unfold in_use; lia]|].
    split; [exact U1|]. split.
    - constructor.
      + reflexivity.
      + unfold small, frc. cbn [fr_code]. change (2 ^ 32) with 4294967296 in SM. change (2 ^ 63) with 9223372036854775808. lia.
      + unfold frc, c. cbn [fr_params fr_locals apart]. left. lia.
      + exact SC.
      + split; cbn [start e_args e_locals frc fr_params fr_locals].
        * intros i z H. split.
          -- rewrite Forall_forall in FA. apply FA. eapply nth_error_In; eauto.
          -- assert (VV : variable s1 c i (VInt I32 z)) by (apply VA; rewrite nth_error_map, H; reflexivity).
             unfold c in *. cbn [variable] in *. destruct VV as (A & B & D'). rewrite EG. split; [exact A|]. split; [exact B|].
             rewrite EC, nth_error_app1; [exact D'|]. apply nth_error_Some. congruence.
        * intros i o H. assert (L : (N.to_nat i < fn_locals f)%nat).
          { assert (nth_error (repeat (@None Z) (fn_locals f)) (N.to_nat i) <> None) as X by congruence. apply nth_error_Some in X. now rewrite repeat_length in X. }
          exists zero_cell. split.
          -- rewrite LB in E2. pose proof (locals_env _ _ _ _ E2 i L) as VV. rewrite LB. exact VV.
          -- intros z ->. exfalso. apply nth_error_In, repeat_spec in H. discriminate.
      + constructor; unfold enter, in_use, room, modest, memory; cbn [w_text w_cells w_bytes].
        * rewrite EV, V1. exact (aw_vm _ _ AW).
        * rewrite EC, len_app, len_repeat, U1, LB. lia.
        * congruence.
        * congruence.
        * rewrite EHp, H1. exact (aw_bytes _ _ AW).
        * rewrite EHp, H1. exact (aw_modest _ _ AW).
      + exact RS.
      + rewrite EO. exact O1.
    - split; [|split; [|split; [unfold in_use; rewrite U1; lia|split; [exact K1|exact G1]]]].
      + intro go. unfold invoke. rewrite IM.
        assert (VV : x_vm s1 = set_output V (c_output V ++ w_text w)) by (rewrite V1; exact (aw_vm _ _ AW)).
        unfold bind at 1. rewrite (proj2 (the_type_on_vm _ s1 ti s1)) by (rewrite VV; split; [exact Et|reflexivity]).
        unfold bind at 1. rewrite (proj2 (the_assembly_on_vm _ s1 ai s1)) by (rewrite VV; split; [exact Ea|reflexivity]).
        unfold in_frame, bind at 1. rewrite E2. unfold frc. destruct (go _ s2); reflexivity.
      + intro s'. repeat split.
  Qed.
End Calls.

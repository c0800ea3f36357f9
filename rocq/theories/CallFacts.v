(** Calls, along whole executions. *)
From Coq Require Import NArith ZArith Arith Lia String List Bool.
From Coq.Strings Require Import Byte.
From Verif Require Import Base BaseFacts Metadata Utf SpecUtf UtfProofs Runtime Value Opcodes Gc Interp SpecRuntime
  RuntimeInv SpecExec SpecFrames InterpFacts InterpInv FrameFacts TraceFacts VmFacts.
Import ListNotations.
Open Scope N_scope.

(** ** Arguments *)

Lemma nth_update {A} (f : A -> A) : forall l i j, nth_error (update l i f) j =
  if Nat.eqb i j then option_map f (nth_error l j) else nth_error l j.
Proof.
  induction l as [|x l IH]; intros [|i] [|j]; cbn; auto.
  - now destruct (Nat.eqb i j).
Qed.

(** Only the operands and the cells of the storage differ. *)
Definition same_but_cells (s s' : machine) : Prop :=
  x_vm s' = x_vm s /\ x_heap s' = x_heap s /\ x_alloc s' = x_alloc s /\ x_host s' = x_host s /\
  k_gen (x_frames s') = k_gen (x_frames s) /\ k_cap (x_frames s') = k_cap (x_frames s) /\
  List.length (k_cells (x_frames s')) = List.length (k_cells (x_frames s)).

Lemma update_length {A} (f : A -> A) : forall l i, List.length (update l i f) = List.length l.
Proof. induction l as [|x l IH]; intros [|i]; cbn; auto. Qed.

Lemma cell_set_run g base n i v s : i < n -> g = k_gen (x_frames s) -> base + i < len (k_cells (x_frames s)) ->
  exists s', cell_set (CFrames g base n) i v s = Ok tt s' /\ same_but_cells s s' /\ x_operands s' = x_operands s /\
    k_cells (x_frames s') = update (k_cells (x_frames s)) (N.to_nat (base + i)) (fun _ => v).
Proof.
  intros Hi -> Hb. unfold cell_set. cbv zeta. destruct (N.leb_spec n i); [lia|]. rewrite Nat.eqb_refl. cbn [negb].
  destruct (N.leb_spec (len (k_cells (x_frames s))) (base + i)); [lia|].
  eexists. split; [reflexivity|]. repeat split. cbn. apply update_length.
Qed.

Lemma pop_args_run g base k : forall args rest s,
  x_operands s = rev args ++ rest -> N.of_nat (List.length args) <= k -> g = k_gen (x_frames s) ->
  base + N.of_nat (List.length args) <= len (k_cells (x_frames s)) ->
  exists s', pop_args (CFrames g base k) (List.length args) s = Ok tt s' /\ same_but_cells s s' /\
    x_operands s' = rest /\
    (forall i, (i < List.length args)%nat ->
       nth_error (k_cells (x_frames s')) (N.to_nat base + i) = nth_error args i) /\
    (forall j, (j < N.to_nat base \/ N.to_nat base + List.length args <= j)%nat ->
       nth_error (k_cells (x_frames s')) j = nth_error (k_cells (x_frames s)) j).
Proof.
  intro args. induction args as [|v args IH] using rev_ind; intros rest s Ho Hk Hg Hb.
  - exists s. cbn. split; [reflexivity|]. split; [repeat split|]. split; [exact Ho|]. split; [lia|reflexivity].
  - rewrite rev_unit in Ho. cbn in Ho. rewrite app_length in *. cbn [List.length] in *.
    replace (List.length args + 1)%nat with (S (List.length args)) in * by lia. cbn [pop_args].
    unfold bind at 1. rewrite (pop_run _ _ _ Ho).
    set (s1 := set_operands s (rev args ++ rest)).
    destruct (cell_set_run g base k (N.of_nat (List.length args)) v s1) as (s2 & E2 & Sm2 & O2 & C2);
      [lia|exact Hg|change (x_frames s1) with (x_frames s); lia|].
    unfold bind. rewrite E2. destruct Sm2 as (A1 & A2 & A3 & A4 & A5 & A6 & A7).
    destruct (IH rest s2) as (s3 & E3 & (B1 & B2 & B3 & B4 & B5 & B6 & B7) & O3 & N3 & K3);
      [rewrite O2; reflexivity|lia|rewrite A5; exact Hg|unfold len in *; rewrite A7; change (x_frames s1) with (x_frames s); lia|].
    exists s3. split; [exact E3|]. change (x_frames s1) with (x_frames s) in *.
    split.
    + unfold same_but_cells. rewrite B1, B2, B3, B4, B5, B6, B7, A1, A2, A3, A4, A5, A6, A7. repeat split.
    + split; [exact O3|]. split.
      * intros i Hi. destruct (Nat.eq_dec i (List.length args)) as [->|Ne].
        -- rewrite K3 by lia. rewrite C2, nth_update.
           replace (N.to_nat (base + N.of_nat (List.length args))) with (N.to_nat base + List.length args)%nat by lia.
           rewrite Nat.eqb_refl. rewrite nth_error_app2 by lia. rewrite Nat.sub_diag. cbn.
           destruct (nth_error (k_cells (x_frames s)) (N.to_nat base + List.length args)) eqn:E; [reflexivity|].
           apply nth_error_None in E. unfold len in *. lia.
        -- rewrite N3 by lia. rewrite nth_error_app1 by lia. reflexivity.
      * intros j Hj. rewrite K3 by lia. rewrite C2, nth_update.
        destruct (Nat.eqb_spec (N.to_nat (base + N.of_nat (List.length args))) j); [lia|reflexivity].
Qed.

(** The number of arguments a call takes. *)
Definition arity (m : method_info) : N := if mt_static m then len (mt_params m) else len (mt_params m) + 1.

Lemma method_call_run p fr tok result m args rest s :
  resolve_method p (fr_assembly fr) tok (x_vm s) = Ok (Some m) (x_vm s) ->
  x_operands s = rev args ++ rest -> len args = arity m ->
  exists c s1, method_call p fr tok result s = Ok (OCall m c result fr) s1 /\
    (forall i v, variable s1 c i v <-> nth_error args (N.to_nat i) = Some v) /\
    x_operands s1 = rest /\ x_vm s1 = x_vm s /\ x_heap s1 = x_heap s /\ x_host s1 = x_host s /\
    in_use s1 = in_use s + arity m /\
    (forall i, i < in_use s -> nth_error (k_cells (x_frames s1)) (N.to_nat i) = nth_error (k_cells (x_frames s)) (N.to_nat i)).
Proof.
  intros R O L. unfold method_call. unfold bind at 1, on_vm. rewrite R.
  replace (set_vm s (x_vm s)) with s by now destruct s.
  change (if mt_static m then len (mt_params m) else len (mt_params m) + 1) with (arity m). cbv zeta.
  destruct (stackalloc_run (arity m) s) as (s1 & E & C & _ & Hh & Hv & Hp & Ho & _).
  unfold bind at 1. rewrite E.
  destruct (pop_args_run (k_gen (x_frames s1)) (len (k_cells (x_frames s))) (arity m) args rest s1)
    as (s2 & E2 & (A1 & A2 & A3 & A4 & A5 & A6 & A7) & O2 & N2 & K2);
    [congruence|unfold len in L; lia|reflexivity|rewrite C, len_app, len_repeat; unfold len in *; lia|].
  replace (N.to_nat (arity m)) with (List.length args) by (unfold len in L; lia).
  unfold bind. rewrite E2. eexists. exists s2. split; [reflexivity|]. split; [|split; [exact O2|]].
  - intros i v. cbn [variable]. rewrite A5. split.
    + intros (_ & Hi & H). rewrite <- N2 by (unfold len in L; lia).
      replace (N.to_nat (len (k_cells (x_frames s))) + N.to_nat i)%nat with (N.to_nat (len (k_cells (x_frames s)) + i)) by lia.
      exact H.
    + intro H. assert (Hi : (N.to_nat i < List.length args)%nat) by (apply nth_error_Some; congruence).
      split; [reflexivity|]. split; [unfold len in L; lia|]. rewrite <- N2 in H by exact Hi.
      replace (N.to_nat (len (k_cells (x_frames s)) + i)) with (N.to_nat (len (k_cells (x_frames s))) + N.to_nat i)%nat by lia.
      exact H.
  - split; [congruence|]. split; [congruence|]. split; [congruence|]. split.
    + unfold in_use. unfold len at 1. rewrite A7, C, app_length, repeat_length. unfold len. lia.
    + intros i Hi. unfold in_use in Hi. rewrite K2 by lia. rewrite C. apply nth_error_app1. unfold len in Hi. lia.
Qed.

(** ** Restoration *)

Lemma calls_restores p m c s t e : calls p m c s t e -> restores c s (final e).
Proof.
  intro H. apply (proj2 (runs_run p)) in H. destruct H as [f H].
  pose proof (invoke_restores (run f p) (run_advances p f) m c s) as R.
  destruct e; cbn in H; rewrite H in R; exact R.
Qed.

(** ** Every moment of an execution *)

Lemma enters_cells m b c s fr s' : enters m b c s fr s' ->
  k_cells (x_frames s') = k_cells (x_frames s) ++ repeat zero_cell (N.to_nat (len (b_locals b))) /\
  x_host s' = x_host s /\ fr_params fr = c /\
  exists g, fr_locals fr = CFrames g (in_use s) (len (b_locals b)).
Proof. intros (ti & ai & gen & cap & _ & _ & _ & -> & ->). cbn. eauto. Qed.

(** From [s] to [s'], no cell that was there has changed except those with [P] false. *)
Definition untouched (P : nat -> Prop) (H : Prop) (s s' : machine) : Prop :=
  (List.length (k_cells (x_frames s)) <= List.length (k_cells (x_frames s')))%nat /\
  (forall i, (i < List.length (k_cells (x_frames s)))%nat -> P i ->
    nth_error (k_cells (x_frames s')) i = nth_error (k_cells (x_frames s)) i) /\
  (H -> x_host s' = x_host s).
Lemma untouched_refl P H s : untouched P H s s.
Proof. repeat split; auto. Qed.
Lemma untouched_trans P H a b c : untouched P H a b -> untouched P H b c -> untouched P H a c.
Proof.
  intros (L1 & C1 & H1) (L2 & C2 & H2). split; [lia|]. split.
  - intros i Hi Hp. rewrite C2; auto. lia.
  - intro h. rewrite H2, H1; auto.
Qed.
Definition not_of (fr : frame) (i : nat) : Prop := ~ in_group (fr_locals fr) i /\ ~ in_group (fr_params fr) i.
Definition no_host (fr : frame) : Prop := fr_locals fr <> CHost /\ fr_params fr <> CHost.
Lemma advances_untouched fr s s' : advances fr s s' -> untouched (not_of fr) (no_host fr) s s'.
Proof.
  intros []. split; [unfold len in *; lia|]. split.
  - intros i Hi [A B]. auto.
  - intros [A B]. auto.
Qed.
Lemma same_frame_groups fr fr' : same_frame fr fr' -> not_of fr' = not_of fr /\ no_host fr' = no_host fr.
Proof. intros (_ & _ & _ & EL & EP). unfold not_of, no_host. now rewrite EL, EP. Qed.

Lemma call_advances p f fr s m c r fr' s1 t v s2 : step f p fr s = Ok (OCall m c r fr') s1 ->
  calls p m c s1 t (Done v s2) -> forall l, advances fr s (with_operands s2 l) /\ same_frame fr fr'.
Proof.
  intros E Hc l. pose proof (step_advances f p fr s) as A. rewrite E in A. destruct A as (A & F & g & base & n & -> & Hb & _).
  split; [|exact F]. eapply advances_same with (b := s2); [|repeat split].
  eapply restores_advances; [exact A|exact (calls_restores _ _ _ _ _ _ Hc)|]. eauto 6.
Qed.

Theorem runs_untouched p :
  (forall fr s t e, runs p fr s t e -> forall fr' s', In (At fr' s') t -> untouched (not_of fr) (no_host fr) s s') /\
  (forall m c s t e, calls p m c s t e -> forall fr' s', In (At fr' s') t ->
     untouched (fun i => ~ in_group c i) (c <> CHost) s s').
Proof.
  apply (traces_ind p
    (fun fr s t e _ => forall fr' s', In (At fr' s') t -> untouched (not_of fr) (no_host fr) s s')
    (fun m c s t e _ => forall fr' s', In (At fr' s') t -> untouched (fun i => ~ in_group c i) (c <> CHost) s s')).
  - intros f fr s e s' E fr2 s2 [H|[]]. injection H as -> ->. apply untouched_refl.
  - intros f fr s v s' E fr2 s2 [H|[]]. injection H as -> ->. apply untouched_refl.
  - intros f fr s fr' s' t e E _ IH fr2 s2 [H|H]; [injection H as -> ->; apply untouched_refl|].
    pose proof (step_advances f p fr s) as A. rewrite E in A. destruct A as [A F].
    destruct (same_frame_groups _ _ F) as [E1 E2]. specialize (IH _ _ H). rewrite E1, E2 in IH.
    eapply untouched_trans; [apply advances_untouched, A|exact IH].
  - intros f fr s m c r fr' s1 t1 v s2 t2 e E Hc IH1 _ IH2 fr3 s3 [H|H]; [injection H as -> ->; apply untouched_refl|].
    destruct (call_advances _ _ _ _ _ _ _ _ _ _ _ _ E Hc (then_push (then_push (x_operands s2) v) r)) as [A2 F].
    destruct (same_frame_groups _ _ F) as [E1 E2]. apply in_app_iff in H. destruct H as [H|H].
    + pose proof (step_advances f p fr s) as A. rewrite E in A. destruct A as (A & _ & g & base & n & -> & Hb & _).
      apply advances_untouched in A. destruct (IH1 _ _ H) as (L3 & C3 & H3). destruct A as (L1 & C1 & H1).
      split; [lia|]. split.
      * intros i Hi P. rewrite C3; [now apply C1|lia|]. cbn. unfold len in Hb. lia.
      * intro P. rewrite H3; [auto|discriminate].
    + specialize (IH2 _ _ H). rewrite E1, E2 in IH2. eapply untouched_trans; [apply advances_untouched, A2|exact IH2].
  - intros f fr s m c r fr' s1 t1 e s2 E _ IH1 fr3 s3 [H|H]; [injection H as -> ->; apply untouched_refl|].
    pose proof (step_advances f p fr s) as A. rewrite E in A. destruct A as (A & _ & g & base & n & -> & Hb & _).
    apply advances_untouched in A. destruct (IH1 _ _ H) as (L3 & C3 & H3). destruct A as (L1 & C1 & H1).
    split; [lia|]. split.
    + intros i Hi P. rewrite C3; [now apply C1|lia|]. cbn. unfold len in Hb. lia.
    + intro P. rewrite H3; [auto|discriminate].
  - intros m b c s fr s1 t v s2 s3 _ En _ IH _ fr4 s4 H. specialize (IH _ _ H).
    apply enters_cells in En. destruct En as (Ec & Eh & Ep & g & El). destruct IH as (L & C & Hh).
    unfold not_of, no_host in *. rewrite El, Ep in *. split; [rewrite Ec, app_length in L; lia|]. split.
    + intros i Hi P. rewrite C; [rewrite Ec; now apply nth_error_app1|rewrite Ec, app_length; lia|].
      split; [|exact P]. cbn. unfold in_use, len. lia.
    + intro P. rewrite Hh; [exact Eh|]. split; [discriminate|exact P].
  - intros m b c s fr s1 t v s2 s3 _ En _ IH _ fr4 s4 H. specialize (IH _ _ H).
    apply enters_cells in En. destruct En as (Ec & Eh & Ep & g & El). destruct IH as (L & C & Hh).
    unfold not_of, no_host in *. rewrite El, Ep in *. split; [rewrite Ec, app_length in L; lia|]. split.
    + intros i Hi P. rewrite C; [rewrite Ec; now apply nth_error_app1|rewrite Ec, app_length; lia|].
      split; [|exact P]. cbn. unfold in_use, len. lia.
    + intro P. rewrite Hh; [exact Eh|]. split; [discriminate|exact P].
  - intros m c s o text r s' _ _ _ _ fr' s2 [H|[]]. discriminate H.
Qed.

(** ** When the storage moves *)

(** If the storage has moved since [s0], this shows in the number of cells in use. *)
Definition moves_show (s0 s : machine) : Prop :=
  in_use s0 <= in_use s /\
  (k_gen (x_frames s) = k_gen (x_frames s0) /\ room s = room s0 \/ room s0 < in_use s).
Lemma moves_refl s : moves_show s s.
Proof. unfold moves_show. auto using N.le_refl. Qed.
Lemma moves_same s0 s s' : moves_show s0 s -> x_frames s' = x_frames s -> moves_show s0 s'.
Proof. unfold moves_show, in_use, room. now intros H ->. Qed.
Lemma moves_cells s0 s s' : moves_show s0 s -> k_gen (x_frames s') = k_gen (x_frames s) ->
  k_cap (x_frames s') = k_cap (x_frames s) -> len (k_cells (x_frames s')) = len (k_cells (x_frames s)) -> moves_show s0 s'.
Proof. unfold moves_show, in_use, room. now intros H -> -> ->. Qed.
Lemma moves_stackalloc s0 s n c s' : moves_show s0 s -> stackalloc n s = Ok c s' ->
  moves_show s0 s' /\ c = CFrames (k_gen (x_frames s')) (in_use s) n /\ in_use s' = in_use s + n.
Proof.
  intros [L H] E. destruct (stackalloc_run n s) as (s1 & E1 & C & _ & _ & _ & _ & _ & G). rewrite E1 in E.
  injection E as <- <-. assert (U : in_use s1 = in_use s + n) by (unfold in_use; rewrite C, len_app, len_repeat; lia).
  split; [|split; [reflexivity|exact U]]. unfold moves_show. split; [lia|]. unfold room, in_use in *.
  destruct (N.ltb_spec (k_cap (x_frames s)) (len (k_cells (x_frames s)) + n)); destruct G as [G1 G2]; [|intuition lia].
  destruct H as [[A B]|H]; right; lia.
Qed.
Lemma moves_cell_set s0 s c i v s' : moves_show s0 s -> cell_set c i v s = Ok tt s' -> moves_show s0 s'.
Proof.
  intros M E. apply cell_set_frames in E. destruct c as [|g base n].
  - destruct E as [[E _] _]. eapply moves_same; eauto.
  - destruct E as [(_ & _ & _ & _ & E) _]. eapply moves_cells; [exact M|rewrite E; reflexivity..|].
    rewrite E. cbn. unfold len. now rewrite update_length.
Qed.
Lemma moves_pop_args s0 c : forall n s, moves_show s0 s ->
  match pop_args c n s with Ok _ s' => moves_show s0 s' | Err _ _ => False | _ => True end.
Proof.
  induction n as [|n IH]; intros s M; cbn [pop_args]; [exact M|].
  unfold bind at 1. pose proof (pop_no_error s) as NE. destruct (pop s) as [v s1|e s1|w|w|] eqn:E; auto.
  apply pop_inv in E. destruct E as (l & _ & ->).
  unfold bind. pose proof (cell_set_no_error c (N.of_nat n) v (set_operands s l)) as NE2.
  destruct (cell_set _ _ _ _) as [[] s2|e s2|w|w|] eqn:E; auto.
  apply IH. eapply moves_cell_set; [|exact E]. eapply moves_same; eauto.
Qed.

(** The arguments are in the current buffer. *)
Definition current (s : machine) (c : cells) : Prop :=
  match c with CHost => True | CFrames g base n => g = k_gen (x_frames s) /\ base + n <= in_use s end.
Lemma current_accessible s c : current s c -> accessible s c.
Proof.
  destruct c as [|g base n]; cbn; [auto|]. intros [-> H] i Hi. unfold in_use in H.
  destruct (nth_error (k_cells (x_frames s)) (N.to_nat (base + i))) as [v|] eqn:E; [eauto|].
  apply nth_error_None in E. unfold len in H. lia.
Qed.
Lemma current_later s s' c : current s c -> k_gen (x_frames s') = k_gen (x_frames s) -> in_use s <= in_use s' -> current s' c.
Proof. destruct c; cbn; [auto|]. intros [-> H] -> L. split; [reflexivity|lia]. Qed.

Lemma pop_args_gen c : forall k s1 s2, pop_args c k s1 = Ok tt s2 -> k_gen (x_frames s2) = k_gen (x_frames s1).
Proof.
  induction k as [|k IH]; intros s1 s2; cbn [pop_args].
  - intro H. injection H as <-. reflexivity.
  - unfold bind at 1. destruct (pop s1) as [v s3|e s3|w|w|] eqn:E; try discriminate.
    apply pop_inv in E. destruct E as (l & _ & ->). unfold bind.
    destruct (cell_set c (N.of_nat k) v (set_operands s1 l)) as [[] s4|e s4|w|w|] eqn:E; try discriminate.
    intro H. rewrite (IH _ _ H). apply cell_set_frames in E. destruct c.
    + destruct E as [[-> _] _]. reflexivity.
    + destruct E as [(_ & _ & _ & _ & ->) _]. reflexivity.
Qed.
Lemma moves_invariant p s0 : invariant p (moves_show s0) (fun m c r s => current s c).
Proof.
  assert (K : forall A (m : M machine A), stays m -> keeps (moves_show s0) m (fun _ _ => True)).
  { intros A m H s Hs. specialize (H s). destruct (m s) as [a s1|e s1|w|w|]; auto; destruct H as (E & _).
    - split; [|exact Logic.I]. eapply moves_same; eauto.
    - eapply moves_same; eauto. }
  split.
  - intros s l H. exact H.
  - intros. apply K. intro s. apply store_frames.
  - intros. apply K, make_room_frames.
  - intros. apply K. intro s. apply on_vm_frames.
  - intros m r s Hs. cbn zeta. set (n := if mt_static m then _ else _). unfold bind at 1.
    destruct (stackalloc_run n s) as (s1 & E & _). rewrite E. pose proof E as E'.
    apply (moves_stackalloc s0) in E'; [|exact Hs]. destruct E' as (M1 & _ & U).
    pose proof (moves_pop_args s0 (CFrames (k_gen (x_frames s1)) (len (k_cells (x_frames s))) n) (N.to_nat n) s1 M1) as M2.
    pose proof (moves_pop_args s1 (CFrames (k_gen (x_frames s1)) (len (k_cells (x_frames s))) n) (N.to_nat n) s1 (moves_refl s1)) as M3.
    unfold bind, ret. destruct (pop_args _ _ s1) as [[] s2|e s2|w|w|] eqn:Ep; auto; [|destruct M2]. split; [exact M2|].
    cbn. clear - M3 U Ep. destruct M3 as [L3 _].
    assert (G : k_gen (x_frames s2) = k_gen (x_frames s1)).
    { eapply pop_args_gen; eauto. }
    split; [now rewrite G|]. unfold in_use in *. lia.
Qed.
Lemma moves_writable fr s0 : writable fr (moves_show s0).
Proof.
  intros c i v _ s Hs. pose proof (cell_set_no_error c i v s) as NE.
  destruct (cell_set c i v s) as [[] s1|e s1|w|w|] eqn:E; auto; [|destruct NE].
  split; [|exact Logic.I]. eapply moves_cell_set; eauto.
Qed.
Lemma step_moves f p fr s :
  match step f p fr s with
  | Ok o s' => moves_show s s' /\ match o with
               | ONext fr' => same_frame fr fr'
               | OReturn _ => True
               | OCall m c r fr' => same_frame fr fr' /\ current s' c
               end
  | Err _ s' => moves_show s s'
  | _ => True
  end.
Proof. exact (keeps_step p fr _ _ (moves_invariant p s) f fr (moves_writable fr s) (same_frame_refl fr) s (moves_refl s)). Qed.

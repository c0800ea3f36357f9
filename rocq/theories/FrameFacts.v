(** What instructions, frames and calls do to the storage of local variables and arguments. *)
From Coq Require Import NArith ZArith Arith Lia String List Bool.
From Coq.Strings Require Import Byte.
From Verif Require Import Base BaseFacts Metadata Utf Runtime Value Opcodes Gc Interp SpecExec SpecFrames InterpFacts InterpInv RuntimeInv.
Import ListNotations.
Open Scope N_scope.

(** From [s] to [s'], the code of frame [fr] and its callees have run. *)
Record advances (fr : frame) (s s' : machine) : Prop := {
  ad_size : len (k_cells (x_frames s')) + x_alloc s = len (k_cells (x_frames s)) + x_alloc s';
  ad_alloc : x_alloc s <= x_alloc s';
  ad_cells : forall i, (i < List.length (k_cells (x_frames s)))%nat ->
             ~ in_group (fr_locals fr) i -> ~ in_group (fr_params fr) i ->
             nth_error (k_cells (x_frames s')) i = nth_error (k_cells (x_frames s)) i;
  ad_gen : (k_gen (x_frames s) <= k_gen (x_frames s'))%nat;
  ad_cap : k_gen (x_frames s') = k_gen (x_frames s) -> k_cap (x_frames s') = k_cap (x_frames s);
  ad_caps : k_cap (x_frames s) <= k_cap (x_frames s');
  ad_host : fr_locals fr <> CHost -> fr_params fr <> CHost -> x_host s' = x_host s;
  ad_hosts : len (x_host s') = len (x_host s) }.

(** From [s] to [s'], a call with arguments [c] has run. *)
Record restores (c : cells) (s s' : machine) : Prop := {
  re_size : len (k_cells (x_frames s')) = len (k_cells (x_frames s));
  re_alloc : x_alloc s' = x_alloc s;
  re_cells : forall i, (i < List.length (k_cells (x_frames s)))%nat -> ~ in_group c i ->
             nth_error (k_cells (x_frames s')) i = nth_error (k_cells (x_frames s)) i;
  re_gen : (k_gen (x_frames s) <= k_gen (x_frames s'))%nat;
  re_cap : k_gen (x_frames s') = k_gen (x_frames s) -> k_cap (x_frames s') = k_cap (x_frames s);
  re_caps : k_cap (x_frames s) <= k_cap (x_frames s');
  re_host : c <> CHost -> x_host s' = x_host s;
  re_hosts : len (x_host s') = len (x_host s) }.

Lemma advances_refl fr s : advances fr s s.
Proof. split; auto; lia. Qed.
Lemma advances_trans fr a b c : advances fr a b -> advances fr b c -> advances fr a c.
Proof.
  intros [] []. split; try lia.
  - intros i Hi HL HP. rewrite ad_cells1; auto. unfold len in *. lia.
  - intros A B. rewrite ad_host1, ad_host0; auto.
Qed.
Lemma advances_frame fr fr' a b : same_frame fr fr' -> advances fr a b -> advances fr' a b.
Proof. intros (_ & _ & _ & EL & EP) []. split; rewrite ?EL, ?EP; auto. Qed.

(** Steps that leave the frames and the host's parameters alone. *)
Definition frames_same (s s' : machine) : Prop :=
  x_frames s' = x_frames s /\ x_alloc s' = x_alloc s /\ x_host s' = x_host s.
Lemma advances_same fr a b c : advances fr a b -> frames_same b c -> advances fr a c.
Proof. intros [] (E1 & E2 & E3). split; rewrite ?E1, ?E2, ?E3; auto. Qed.

Lemma store_frames o d bs s : match store o d bs s with Ok _ s' | Err _ s' => frames_same s s' | _ => True end.
Proof. unfold store. destruct (negb _); auto. destruct (_ <=? _); auto. repeat split. Qed.
Lemma frames_same_refl s : frames_same s s. Proof. repeat split. Qed.
Lemma frames_same_trans a b c : frames_same a b -> frames_same b c -> frames_same a c.
Proof. unfold frames_same. intuition congruence. Qed.
Definition stays {A} (m : M machine A) : Prop :=
  forall s, match m s with Ok _ s' | Err _ s' => frames_same s s' | _ => True end.
Lemma stays_bind {A B} (m : M machine A) (k : A -> M machine B) : stays m -> (forall a, stays (k a)) -> stays (bind m k).
Proof.
  intros Hm Hk s. unfold bind. specialize (Hm s). destruct (m s) as [a s1|e s1|w|w|]; auto.
  specialize (Hk a s1). destruct (k a s1); eauto using frames_same_trans.
Qed.
Lemma stays_pure {A} (m : M machine A) : pure m -> stays m.
Proof. intros H s. specialize (H s). destruct (m s); subst; auto using frames_same_refl. Qed.
Lemma stays_vec_reserve n : stays (vec_reserve n).
Proof. intro s. unfold vec_reserve. cbv zeta. destruct (_ <? _); [|apply frames_same_refl]. destruct (_ <? _); [exact Logic.I|repeat split]. Qed.
Lemma stays_vec_resize n : stays (vec_resize n).
Proof.
  apply stays_bind; [intro s; apply frames_same_refl|intro l]. destruct (_ <? _).
  - apply stays_bind; [apply stays_vec_reserve|intros [] s; repeat split].
  - intro s. repeat split.
Qed.
Lemma make_room_frames p n : stays (make_room p n).
Proof.
  apply stays_bind.
  - apply stays_bind; [intro s; apply frames_same_refl|intro h].
    apply stays_bind; [apply stays_pure, pure_ovf|intro k].
    destruct (_ <? _); [apply stays_vec_reserve|apply stays_pure, pure_ret].
  - intros []. apply stays_bind; [intro s; apply frames_same_refl|intro b].
    apply stays_bind; [apply stays_pure, pure_ovf|intro k].
    apply stays_bind; [apply stays_vec_resize|intros [] s; apply frames_same_refl].
Qed.
Lemma on_vm_frames {A} (m : M vm A) s : match on_vm m s with Ok _ s' | Err _ s' => frames_same s s' | _ => True end.
Proof. unfold on_vm. destruct (m (x_vm s)); auto; repeat split. Qed.

(** ** Frame storage *)

Lemma stackalloc_run n s : exists s', stackalloc n s = Ok (CFrames (k_gen (x_frames s')) (len (k_cells (x_frames s))) n) s' /\
  k_cells (x_frames s') = k_cells (x_frames s) ++ repeat zero_cell (N.to_nat n) /\
  x_alloc s' = x_alloc s + n /\ x_host s' = x_host s /\ x_vm s' = x_vm s /\ x_heap s' = x_heap s /\
  x_operands s' = x_operands s /\
  (if k_cap (x_frames s) <? len (k_cells (x_frames s)) + n
   then k_gen (x_frames s') = S (k_gen (x_frames s)) /\
        k_cap (x_frames s') = N.max (2 * k_cap (x_frames s)) (len (k_cells (x_frames s)) + n)
   else k_gen (x_frames s') = k_gen (x_frames s) /\ k_cap (x_frames s') = k_cap (x_frames s)).
Proof.
  unfold stackalloc. cbv zeta. destruct (k_cap (x_frames s) <? len (k_cells (x_frames s)) + n);
  match goal with |- context [Ok _ ?x = _] => exists x end; (split; [reflexivity|]); cbn; auto 10.
Qed.

Lemma stackalloc_advances fr n s c s' : stackalloc n s = Ok c s' -> advances fr s s'.
Proof.
  intro H. destruct (stackalloc_run n s) as (s1 & E & Ec & Ea & Eh & _ & _ & _ & Eg).
  rewrite E in H. injection H as _ <-.
  assert (L : len (k_cells (x_frames s1)) = len (k_cells (x_frames s)) + n).
  { rewrite Ec, len_app, len_repeat. lia. }
  destruct (k_cap (x_frames s) <? _) eqn:C; destruct Eg as [Eg Ecap]; split; rewrite ?Eh; auto; try lia.
  - intros i Hi _ _. rewrite Ec, nth_error_app1; auto.
  - intros i Hi _ _. rewrite Ec, nth_error_app1; auto.
Qed.

Lemma cell_set_frames c i v s s' : cell_set c i v s = Ok tt s' ->
  match c with
  | CHost => x_frames s' = x_frames s /\ x_host s' = update (x_host s) (N.to_nat i) (fun _ => v)
  | CFrames g base n =>
      i < n /\ g = k_gen (x_frames s) /\ base + i < len (k_cells (x_frames s)) /\ x_host s' = x_host s /\
      x_frames s' = mkFrames (k_gen (x_frames s)) (k_cap (x_frames s))
                      (update (k_cells (x_frames s)) (N.to_nat (base + i)) (fun _ => v))
  end /\ x_alloc s' = x_alloc s /\ x_vm s' = x_vm s /\ x_heap s' = x_heap s /\ x_operands s' = x_operands s.
Proof.
  unfold cell_set. destruct c as [|g base n].
  - destruct (_ <=? _); [discriminate|]. intro H. injection H as <-. cbn. auto 10.
  - cbv zeta. destruct (n <=? i) eqn:E1; [discriminate|].
    destruct (Nat.eqb g (k_gen (x_frames s))) eqn:E2; [|discriminate]. cbn [negb].
    destruct (len _ <=? _) eqn:E3; [discriminate|]. intro H. injection H as <-. cbn.
    apply Nat.eqb_eq in E2. repeat split; auto; try lia.
Qed.

Lemma cell_set_no_error c i v s : match cell_set c i v s with Err _ _ => False | _ => True end.
Proof. unfold cell_set. destruct c; cbv zeta; repeat destruct (_ <=? _); auto; destruct (negb _); auto. Qed.

(** Writing to a cell that belongs to the frame or is newer than [s0]. *)
Lemma cell_set_advances fr s0 c i v s s' : advances fr s0 s ->
  (c = fr_locals fr \/ c = fr_params fr \/
   exists g base n, c = CFrames g base n /\ len (k_cells (x_frames s0)) <= base) ->
  cell_set c i v s = Ok tt s' ->
  advances fr s0 s' /\ len (k_cells (x_frames s')) = len (k_cells (x_frames s)).
Proof.
  intros [] Hc H. apply cell_set_frames in H. destruct H as (H & Ea & _). destruct c as [|g base n].
  - destruct H as [Ef Eh]. rewrite !Ef. split; [split|]; rewrite ?Ef, ?Ea, ?Eh; auto.
    + intros HL HP. exfalso. destruct Hc as [Hc|[Hc|(g & b & n & Hc & _)]]; try discriminate; congruence.
    + rewrite len_update. exact ad_hosts0.
  - destruct H as (Hi & Eg & Hb & Eh & Ef).
    split; [split|]; rewrite ?Ef, ?Ea, ?Eh; cbn [k_cells k_gen k_cap]; rewrite ?len_update; auto.
    intros j Hj HL HP. rewrite nth_update.
    destruct (Nat.eqb (N.to_nat (base + i)) j) eqn:E; [|now apply ad_cells0].
    apply Nat.eqb_eq in E. exfalso. destruct Hc as [Hc|[Hc|(g' & b & n' & Hc & Hn)]].
    + apply HL. rewrite <- Hc. cbn. lia.
    + apply HP. rewrite <- Hc. cbn. lia.
    + injection Hc as -> -> ->. unfold len in Hn. lia.
Qed.

Lemma pop_no_error s : match pop s with Err _ _ => False | _ => True end.
Proof. unfold pop, bind, try_pop. destruct (x_operands s); cbn; exact Logic.I. Qed.
Lemma pop_inv s v s' : pop s = Ok v s' -> exists l, x_operands s = v :: l /\ s' = set_operands s l.
Proof.
  unfold pop, bind, try_pop. destruct (x_operands s) eqn:E; cbn; [discriminate|].
  intro H. injection H as <- <-. eauto.
Qed.

Lemma pop_args_advances fr s0 g base k : len (k_cells (x_frames s0)) <= base ->
  forall n s, advances fr s0 s ->
  match pop_args (CFrames g base k) n s with
  | Ok _ s' => advances fr s0 s' /\ len (k_cells (x_frames s')) = len (k_cells (x_frames s))
  | Err _ _ => False
  | _ => True
  end.
Proof.
  intro Hb. induction n as [|n IH]; intros s A; cbn [pop_args].
  - cbn. auto.
  - unfold bind at 1. pose proof (pop_no_error s) as NE. destruct (pop s) as [v s1|e s1|w|w|] eqn:E; auto.
    apply pop_inv in E. destruct E as (l & _ & ->).
    assert (A1 : advances fr s0 (set_operands s l)) by (eapply advances_same; [exact A|repeat split]).
    unfold bind. pose proof (cell_set_no_error (CFrames g base k) (N.of_nat n) v (set_operands s l)) as NE2.
    destruct (cell_set _ _ _ _) as [[] s2|e s2|w|w|] eqn:E; auto.
    eapply cell_set_advances in E; [|exact A1|right; right; eauto 6]. destruct E as [A2 L2].
    specialize (IH s2 A2). destruct (pop_args _ _ s2); auto. destruct IH as [A3 L3]. split; auto.
    rewrite L3, L2. reflexivity.
Qed.

(** The arguments of a call are in new cells at the end of the storage. *)
Definition fresh_call (s0 : machine) (m : method_info) (c : cells) (r : option value) (s : machine) : Prop :=
  exists g base n, c = CFrames g base n /\ len (k_cells (x_frames s0)) <= base /\
                   base + n = len (k_cells (x_frames s)).

Lemma keeps_lemma {A} fr s0 (m : M machine A) :
  (forall s, match m s with Ok _ s' | Err _ s' => frames_same s s' | _ => True end) ->
  keeps (advances fr s0) m (fun _ _ => True).
Proof.
  intros H s Hs. specialize (H s). destruct (m s); auto; [split; [|exact Logic.I]|];
  eapply advances_same; eauto.
Qed.

Lemma frames_invariant p fr s0 : invariant p (advances fr s0) (fresh_call s0).
Proof.
  split.
  - intros s l H. eapply advances_same; [exact H|repeat split].
  - intros. apply keeps_lemma. intro s. apply store_frames.
  - intros. apply keeps_lemma. intro s. apply make_room_frames.
  - intros. apply keeps_lemma. intro s. apply on_vm_frames.
  - intros m r s Hs. cbn zeta. set (n := if mt_static m then _ else _).
    unfold bind at 1. destruct (stackalloc_run n s) as (s1 & E & Ec & Ea & Eh & _). rewrite E.
    apply stackalloc_advances with (fr := fr) in E.
    assert (A1 : advances fr s0 s1) by (eapply advances_trans; eauto).
    assert (B : len (k_cells (x_frames s0)) <= len (k_cells (x_frames s))).
    { pose proof (ad_size _ _ _ Hs). pose proof (ad_alloc _ _ _ Hs). lia. }
    pose proof (pop_args_advances fr s0 (k_gen (x_frames s1)) _ n B (N.to_nat n) s1 A1) as H.
    unfold bind, ret. destruct (pop_args _ _ s1) as [[] s2|e s2|w|w|]; auto; [|destruct H].
    destruct H as [A2 L2]. split; [exact A2|]. exists (k_gen (x_frames s1)), (len (k_cells (x_frames s))), n.
    repeat split; auto. rewrite L2, Ec, len_app, len_repeat. lia.
Qed.

Lemma frames_writable fr s0 : writable fr (advances fr s0).
Proof.
  intros c i v Hc s Hs. pose proof (cell_set_no_error c i v s) as NE.
  destruct (cell_set c i v s) as [[] s1|e s1|w|w|] eqn:E; auto; [|destruct NE].
  eapply cell_set_advances in E; [|exact Hs|intuition]. split; [apply E|exact Logic.I].
Qed.

Lemma step_advances f p fr s :
  match step f p fr s with
  | Ok o s' => advances fr s s' /\ match o with
               | ONext fr' => same_frame fr fr'
               | OReturn _ => True
               | OCall m c r fr' => same_frame fr fr' /\ fresh_call s m c r s'
               end
  | Err _ s' => advances fr s s'
  | _ => True
  end.
Proof. exact (keeps_step p fr _ _ (frames_invariant p fr s) f fr (frames_writable fr s) (same_frame_refl fr) s (advances_refl fr s)). Qed.

(** ** Calls *)

Lemma cell_get_pure c i s : match cell_get c i s with Ok _ s' | Err _ s' => s' = s | _ => True end.
Proof. apply pure_cell_get. Qed.

Lemma restores_refl c s : restores c s s.
Proof. split; auto; lia. Qed.
Lemma restores_same c s s' : frames_same s s' -> restores c s s'.
Proof. intros (E1 & E2 & E3). split; rewrite ?E1, ?E2, ?E3; auto; lia. Qed.

Lemma pure_string_data o : pure (string_data o).
Proof. apply pure_bind; [apply pure_load|intro l]. apply pure_bind; [apply pure_load|intro; pur]. Qed.
Lemma pure_as_string o : pure (as_string o).
Proof. apply pure_bind; [apply pure_flags|intro; pur]. Qed.

Definition no_error {S A} (m : M S A) : Prop := forall s, match m s with Err _ _ => False | _ => True end.
Lemma no_error_bind {S A B} (m : M S A) (k : A -> M S B) : no_error m -> (forall a, no_error (k a)) -> no_error (bind m k).
Proof. intros Hm Hk s. unfold bind. specialize (Hm s). destruct (m s); auto. apply Hk. Qed.
Lemma no_error_load o d n : no_error (load o d n).
Proof. intro s. unfold load. destruct (negb _); auto. destruct (_ <=? _); auto. Qed.
Lemma no_error_ret {S A} (a : A) : no_error (S := S) (ret a). Proof. intro s. exact Logic.I. Qed.
Lemma no_error_string_data o : no_error (string_data o).
Proof. repeat (apply no_error_bind; [apply no_error_load|intro]). apply no_error_ret. Qed.
Lemma no_error_as_string o : no_error (as_string o).
Proof. apply no_error_bind; [|intro; apply no_error_ret]. apply no_error_bind; [apply no_error_load|intro; apply no_error_ret]. Qed.

(** What writing to the console does. *)
Lemma console_write_run args s :
  match console_write args s with
  | Ok r s' => r = None /\ exists o units text, cell_get args 0 s = Ok (VObject o) s /\
      as_string o s = Ok true s /\ string_data o s = Ok units s /\ utf16_decode units = Some text /\
      s' = set_vm s (set_output (x_vm s) (c_output (x_vm s) ++ text))
  | Err _ s' => False
  | _ => True
  end.
Proof.
  unfold console_write, bind at 1. pose proof (cell_get_pure args 0 s) as G.
  destruct (cell_get args 0 s) as [v s1|e s1|w|w|] eqn:E; auto.
  - subst s1. destruct v as [| | |o]; try exact Logic.I.
    unfold bind at 1. pose proof (pure_as_string o s) as H.
    destruct (as_string o s) as [b s1|e s1|w|w|] eqn:E1; auto.
    + subst s1. destruct b; [|exact Logic.I].
      unfold bind at 1. pose proof (pure_string_data o s) as H'.
      destruct (string_data o s) as [units s1|e s1|w|w|] eqn:E2; auto.
      * subst s1. unfold bind, unwrap. destruct (utf16_decode units) as [text|] eqn:E3; [|exact Logic.I].
        cbn. split; [reflexivity|]. exists o, units, text. auto.
      * pose proof (no_error_string_data o s) as N. now rewrite E2 in N.
    + pose proof (no_error_as_string o s) as N. now rewrite E1 in N.
  - exfalso. revert E. unfold cell_get. destruct args; [destruct (nth_error _ _); discriminate|].
    destruct (_ <=? _); [discriminate|]. destruct (negb _); [discriminate|]. destruct (nth_error _ _); discriminate.
Qed.

Section Calls.
  Variable (p : profile) (go : frame -> M machine (option value)).
  Hypothesis Go : forall fr s, match go fr s with Ok _ s' | Err _ s' => advances fr s s' | _ => True end.

  Lemma in_frame_restores m a b c code s :
    match in_frame (locals <- stackalloc b ;; go (mkFrame m a code 0 locals c)) s with
    | Ok _ s' | Err _ s' => restores c s s'
    | _ => True
    end.
  Proof.
    unfold in_frame. unfold bind. set (s1 := set_alloc s 0).
    destruct (stackalloc_run b s1) as (s2 & E & Ec & Ea & Eh & Ev & _ & _ & _).
    rewrite E.
    assert (A0 : forall fr, advances fr s1 s2) by (intro fr; eapply stackalloc_advances; eauto).
    set (fr := mkFrame m a code 0 (CFrames (k_gen (x_frames s2)) (len (k_cells (x_frames s1))) b) c).
    assert (K : forall s3, advances fr s2 s3 ->
      restores c s (set_alloc (set_frames s3 (mkFrames (k_gen (x_frames s3)) (k_cap (x_frames s3))
        (firstn (N.to_nat (len (k_cells (x_frames s3)) - x_alloc s3)) (k_cells (x_frames s3))))) (x_alloc s))).
    { intros s3 A3. assert (A := advances_trans fr _ _ _ (A0 fr) A3).
      pose proof (ad_size _ _ _ A) as Sz.
      replace (x_alloc s1) with 0 in Sz by reflexivity.
      assert (L : N.to_nat (len (k_cells (x_frames s3)) - x_alloc s3) = List.length (k_cells (x_frames s))).
      { change (k_cells (x_frames s)) with (k_cells (x_frames s1)). unfold len in *. lia. }
      rewrite L. destruct A. split; cbn [set_alloc set_frames x_frames x_alloc x_host k_cells k_gen k_cap]; auto.
      - unfold len. rewrite firstn_length. change (k_cells (x_frames s)) with (k_cells (x_frames s1)). unfold len in *. lia.
      - intros i Hi Hc.
        assert (Hn : forall l : list value, nth_error (firstn (List.length (k_cells (x_frames s))) l) i = nth_error l i).
        { intro l. clear - Hi. revert i Hi. generalize (List.length (k_cells (x_frames s))).
          revert l. induction l as [|x l IH]; intros [|n] [|i] H; cbn; auto; try lia. apply IH. lia. }
        rewrite Hn. apply ad_cells0; auto. cbn. unfold len. change (k_cells (x_frames s1)) with (k_cells (x_frames s)). lia.
      - intro Hc. apply ad_host0; [discriminate|exact Hc]. }
    specialize (Go fr s2). destruct (go fr s2) as [v s3|e s3|w|w|]; auto.
  Qed.

  Lemma invoke_restores m c s :
    match invoke go m c s with Ok _ s' | Err _ s' => restores c s s' | _ => True end.
  Proof.
    unfold invoke. destruct (mt_impl m) as [|b|i].
    - exact Logic.I.
    - unfold bind at 1. pose proof (pure_on_vm _ (pure_the_type (mt_declaring m)) s) as H1.
      destruct (on_vm (the_type (mt_declaring m)) s) as [ti s1|e s1|w|w|]; auto; subst s1; [|apply restores_refl].
      unfold bind at 1. pose proof (pure_on_vm _ (pure_the_assembly (ti_assembly ti)) s) as H2.
      destruct (on_vm (the_assembly (ti_assembly ti)) s) as [ai s1|e s1|w|w|]; auto; subst s1; [|apply restores_refl].
      apply in_frame_restores.
    - destruct i; try exact Logic.I. pose proof (console_write_run c s) as H.
      destruct (console_write c s) as [r s1|e s1|w|w|]; auto; [|destruct H].
      destruct H as (_ & o & u & t & _ & _ & _ & _ & ->). apply restores_same. repeat split.
  Qed.
End Calls.

Lemma restores_advances fr c s0 s s' : advances fr s0 s -> restores c s s' ->
  (exists g base n, c = CFrames g base n /\ len (k_cells (x_frames s0)) <= base) -> advances fr s0 s'.
Proof.
  intros [] [] (g & base & n & -> & Hb). split; try lia.
  - intros i Hi HL HP. rewrite re_cells0; [now apply ad_cells0| |].
    + unfold len in *. lia.
    + cbn. unfold len in *. lia.
  - intros HL HP. rewrite re_host0; [auto|discriminate].
Qed.

Lemma push_if_run o s : push_if o s = Ok tt (set_operands s (match o with Some v => v :: x_operands s | None => x_operands s end)).
Proof. destruct o; cbn; [reflexivity|]. now destruct s. Qed.

Theorem run_advances p : forall fuel fr s,
  match run fuel p fr s with Ok _ s' | Err _ s' => advances fr s s' | _ => True end.
Proof.
  induction fuel as [|f IH]; intros fr s; cbn [run]; [exact Logic.I|].
  unfold bind at 1. pose proof (step_advances f p fr s) as S1.
  destruct (step f p fr s) as [o s1|e s1|w|w|]; auto. destruct S1 as [A1 O1].
  destruct o as [fr'|v|m c r fr'].
  - specialize (IH fr' s1). destruct (run f p fr' s1); auto;
    (eapply advances_trans; [exact A1|]; eapply advances_frame; [|exact IH]);
    unfold same_frame in *; intuition congruence.
  - exact A1.
  - destruct O1 as [F1 (g & base & n & -> & Hb & _)].
    unfold bind at 1. pose proof (invoke_restores (run f p) IH m (CFrames g base n) s1) as R1.
    destruct (invoke (run f p) m (CFrames g base n) s1) as [v s2|e s2|w|w|]; auto;
    (assert (A2 : advances fr s s2) by (eapply restores_advances; eauto)); [|exact A2].
    unfold bind. rewrite push_if_run. cbn beta iota. rewrite push_if_run.
    match goal with |- context [run f p fr' ?x] => set (s4 := x) end.
    assert (A4 : advances fr s s4) by (eapply advances_same; [exact A2|repeat split]).
    specialize (IH fr' s4). destruct (run f p fr' s4); auto;
    (eapply advances_trans; [exact A4|]; eapply advances_frame; [|exact IH]);
    unfold same_frame in *; intuition congruence.
Qed.

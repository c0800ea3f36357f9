(** A program that follows an execution to its end and finds that no hazard is met on the way; for examples. *)
From Coq Require Import NArith ZArith Arith Lia String List Bool.
From Coq.Strings Require Import Byte.
From Verif Require Import Base BaseFacts ParseSpec Metadata Utf Runtime Value Opcodes Gc Interp SpecBytes SpecExec SpecFrames SpecStack SpecRuntime SpecTypes SpecHeap
  SpecSafety RuntimeInv InterpFacts InterpInv FrameFacts VmFacts TypeFacts HeapFacts FieldFacts CallFacts TraceFacts TraceProps PropsHeap SafetyFacts SafetyOps SafetyRuns.
Import ListNotations.
Open Scope N_scope.

(** ** All places *)

Definition entered (m : method_info) (b : body) (c : cells) (s : machine) : option (frame * machine) :=
  match nth_error (c_types (x_vm s)) (mt_declaring m) with
  | Some ti =>
      match nth_error (c_arena (x_vm s)) (ti_assembly ti), stackalloc (len (b_locals b)) (set_alloc s 0) with
      | Some (Some _), Ok l s1 => Some (mkFrame m (ti_assembly ti) (b_code b) 0 l c, s1)
      | _, _ => None
      end
  | None => None
  end.

Lemma enters_fun m b c s fr s1 fr' s1' : enters m b c s fr s1 -> enters m b c s fr' s1' -> fr' = fr /\ s1' = s1.
Proof.
  intros (ti & ai & g & k & A & _ & C & -> & ->) (ti' & ai' & g' & k' & A' & _ & C' & -> & ->).
  assert (ti' = ti) as -> by congruence. destruct (_ <=? _); destruct C as [-> ->], C' as [-> ->]; split; reflexivity.
Qed.
Lemma entered_enters m b c s fr s1 : enters m b c s fr s1 -> entered m b c s = Some (fr, s1).
Proof.
  intro H. destruct H as (ti & ai & g & k & A & B & X). unfold entered. rewrite A, B.
  destruct (enters_run m b c s ti ai A B) as (l & s2 & E & En). rewrite E.
  destruct (enters_fun _ _ _ _ _ _ _ _ (ex_intro _ ti (ex_intro _ ai (ex_intro _ g (ex_intro _ k (conj A (conj B X)))))) En) as [-> ->]. reflexivity.
Qed.

Lemma enters_entered m b c s fr s1 : entered m b c s = Some (fr, s1) -> enters m b c s fr s1.
Proof.
  unfold entered. destruct (nth_error (c_types (x_vm s)) (mt_declaring m)) as [ti|] eqn:A; [|discriminate].
  destruct (nth_error (c_arena (x_vm s)) (ti_assembly ti)) as [[ai|]|] eqn:B; try discriminate.
  destruct (enters_run m b c s ti ai A B) as (l & s2 & E & En). rewrite E. intro Q. injection Q as <- <-. exact En.
Qed.

Fixpoint survey (ok : place -> bool) (n : nat) (p : profile) (x : place) : bool :=
  match n with
  | O => false
  | S n' =>
      ok x &&
      match x with
      | Calling m c s =>
          match mt_impl m with
          | IIL b => match entered m b c s with Some (fr, s1) => survey ok n' p (InFrame fr s1) | None => true end
          | _ => true
          end
      | InFrame fr s =>
          match step n' p fr s with
          | Ok (ONext fr1) s1 => survey ok n' p (InFrame fr1 s1)
          | Ok (OCall m c r fr1) s1 =>
              survey ok n' p (Calling m c s1) &&
              match invoke (run n' p) m c s1 with
              | Ok v s2 => survey ok n' p (InFrame fr1 (with_operands s2 (then_push (then_push (x_operands s2) v) r)))
              | NoFuel => false
              | _ => true
              end
          | NoFuel => false
          | _ => true
          end
      end
  end.

Lemma step_same p f g fr s a b : step f p fr s = a -> step g p fr s = b -> a <> NoFuel -> b <> NoFuel -> a = b.
Proof.
  intros A B Na Nb. apply (step_more p f (Nat.max f g)) in A; auto; [|lia]. apply (step_more p g (Nat.max f g)) in B; auto; [|lia]. congruence.
Qed.
Lemma invoke_same p f g m c s a b : invoke (run f p) m c s = a -> invoke (run g p) m c s = b -> a <> NoFuel -> b <> NoFuel -> a = b.
Proof.
  intros A B Na Nb. apply (invoke_more p f (Nat.max f g)) in A; auto; [|lia]. apply (invoke_more p g (Nat.max f g)) in B; auto; [|lia]. congruence.
Qed.

Theorem survey_complete ok p x y : reaches p x y -> forall n, survey ok n p x = true -> ok y = true.
Proof.
  induction 1 as [x|f fr s fr1 s1 x E H IH|f fr s m c r fr1 s1 x E H IH|m b c s fr s1 x Im En H IH|f fr s m c r fr1 s1 t v s2 x E C H IH];
    intros [|n] V; try discriminate V; cbn [survey] in V; apply andb_true_iff in V as [V1 V].
  - exact V1.
  - destruct (step n p fr s) as [o s0|e s0|w|w|] eqn:E2; try (apply (step_same _ _ _ _ _ _ _ E) in E2; [|discriminate|discriminate]; discriminate E2).
    pose proof (step_same _ _ _ _ _ _ _ E E2 ltac:(discriminate) ltac:(discriminate)) as Q. injection Q as <- <-. eauto.
  - destruct (step n p fr s) as [o s0|e s0|w|w|] eqn:E2; try (apply (step_same _ _ _ _ _ _ _ E) in E2; [|discriminate|discriminate]; discriminate E2).
    pose proof (step_same _ _ _ _ _ _ _ E E2 ltac:(discriminate) ltac:(discriminate)) as Q. injection Q as <- <-.
    apply andb_true_iff in V as [V _]. eauto.
  - rewrite Im, (entered_enters _ _ _ _ _ _ En) in V. eauto.
  - destruct (step n p fr s) as [o s0|e s0|w|w|] eqn:E2; try (apply (step_same _ _ _ _ _ _ _ E) in E2; [|discriminate|discriminate]; discriminate E2).
    pose proof (step_same _ _ _ _ _ _ _ E E2 ltac:(discriminate) ltac:(discriminate)) as Q. injection Q as <- <-.
    apply andb_true_iff in V as [_ V]. destruct (proj2 (runs_run p) _ _ _ _ _ C) as [g G]. cbn in G.
    destruct (invoke (run n p) m c s1) as [v3 s3|e s3|w|w|] eqn:E3; try (apply (invoke_same _ _ _ _ _ _ _ _ G) in E3; [|discriminate|discriminate]; discriminate E3).
    pose proof (invoke_same _ _ _ _ _ _ _ _ G E3 ltac:(discriminate) ltac:(discriminate)) as Q. injection Q as <- <-. eauto.
Qed.

(** ** The runtime meanwhile *)

Lemma reaches_grows p x y : reaches p x y -> consistent p (x_vm (state_of x)) ->
  consistent p (x_vm (state_of y)) /\ grows (x_vm (state_of x)) (x_vm (state_of y)).
Proof.
  assert (St : forall f fr s o s1, step f p fr s = Ok o s1 -> consistent p (x_vm s) -> consistent p (x_vm s1) /\ grows (x_vm s) (x_vm s1)).
  { intros f fr s o s1 E W. pose proof (step_quiet f p fr s) as Q. rewrite E in Q. destruct Q as [_ Q]. destruct (Q W) as [W' A].
    split; [exact W'|]. apply evolves_grows, appends_evolves, A. }
  induction 1 as [x|f fr s fr1 s1 x E H IH|f fr s m c r fr1 s1 x E H IH|m b c s fr s1 x Im En H IH|f fr s m c r fr1 s1 t v s2 x E C H IH];
    cbn [state_of] in *; intro W.
  - split; [exact W|apply grows_refl].
  - destruct (St _ _ _ _ _ E W) as [W1 G1]. destruct (IH W1) as [W2 G2]. eauto using grows_trans.
  - destruct (St _ _ _ _ _ E W) as [W1 G1]. destruct (IH W1) as [W2 G2]. eauto using grows_trans.
  - destruct En as (ti & ai & g & k & _ & _ & _ & -> & ->). exact (IH W).
  - destruct (St _ _ _ _ _ E W) as [W1 G1]. destruct (proj2 (proj2 (runs_prints p) _ _ _ _ _ C) W1) as [W2 G2]. cbn [final] in *.
    destruct (IH W2) as [W3 G3]. eauto using grows_trans.
Qed.

(** ** Checking a place *)

Section Check.
  (** The runtime at the start. *)
  Variable v0 : vm.

  Definition is_here (code : list byte) (ip : N) (op : list byte) : bool :=
    bytes_eqb (firstn (List.length op) (skipn (N.to_nat ip) code)) op.
  Definition token (code : list byte) (ip : N) : N := le_dec (firstn 4 (skipn (N.to_nat ip + 1) code)).
  Definition rows {A} (sel : assembly_info -> list A) (a : aref) (i : N) : option A :=
    match nth_error (c_arena v0) a with Some (Some ai) => if i - 1 <? len (sel ai) then nth_error (sel ai) (N.to_nat (i - 1)) else None | _ => None end.
  Definition byte_size (t : tref) (ok : N -> bool) : bool :=
    match type_size 20 Debug t v0 with Ok n _ => ok n | _ => false end.
  (** Every type that has the number in the header of [o] has at least [k] bytes. *)
  Definition roomy (s : machine) (o : obj) (k : N) : bool :=
    let id := le_dec (firstn 4 (skipn (N.to_nat (o_off o) + 1) (memory s))) in
    forallb (fun t => match nth_error (c_types v0) t with
                      | Some ti => negb (ti_id ti =? id) || byte_size t (fun n => k <=? n)
                      | None => true end) (seq 0 (List.length (c_types v0))).
  Definition field_at (fr : frame) (ok : field_info -> bool) : bool :=
    let tok := token (fr_code fr) (fr_ip fr) in
    match rows a_fields (fr_assembly fr) (tok - 4 * 2 ^ 24) with Some f => ok f | None => false end.

  Definition avoids (x : place) : bool :=
    let s := state_of x in
    (List.length (c_types (x_vm s)) =? List.length (c_types v0))%nat && (List.length (c_arena (x_vm s)) =? List.length (c_arena v0))%nat &&
    (in_use s <=? 64) && (len (memory s) <=? 1024) && (len (c_types (x_vm s)) <=? 2 ^ 32) &&
    match x with
    | Calling _ _ _ => true
    | InFrame fr s =>
        let here := is_here (fr_code fr) (fr_ip fr) in
        forallb (fun e => if here (fst e) then fr_ip fr + len (fst e) + snd e <=? len (fr_code fr) else true) operand_sizes &&
        (if here [x7d] then match x_operands s with
                              | v :: VObject o :: _ =>
                                  match width_of v with Some k => field_at fr (fun f => roomy s o (f_offset f + k)) | None => true end
                              | _ => true end else true) &&
        (if here [x7b] then match x_operands s with
                              | VObject o :: _ => field_at fr (fun f => roomy s o (f_offset f + 8))
                              | _ => true end else true) &&
        (if here [x73] then let tok := token (fr_code fr) (fr_ip fr) in
           forallb (fun o => match o with Some m => byte_size (mt_declaring m) (fun n => len (memory s) + 5 + n <? 2 ^ 64) | None => true end)
             [rows a_method_defs (fr_assembly fr) (tok - 6 * 2 ^ 24); rows a_method_refs (fr_assembly fr) (tok - 10 * 2 ^ 24)] else true) &&
        (if here [x8d] then match x_operands s with
                              | VInt I32 k :: _ => let tok := token (fr_code fr) (fr_ip fr) in
           forallb (fun o => match o with Some t => byte_size t (fun n => len (memory s) + 17 + n * Z.to_N (k mod 2 ^ 64) <? 2 ^ 64) | None => true end)
             [rows a_types (fr_assembly fr) (tok - 2 * 2 ^ 24); rows a_type_refs (fr_assembly fr) (tok - 1 * 2 ^ 24)]
                              | _ => true end else true)
    end.

  Hypothesis W0 : consistent Debug v0.

  Lemma at_here {A} (pre bs post : list A) : skipn (N.to_nat (len pre)) (pre ++ bs ++ post) = bs ++ post.
  Proof.
    unfold len. rewrite Nat2N.id. clear. induction pre as [|y pre IH]; [reflexivity|exact IH].
  Qed.
  Lemma instruction_here fr op : instruction fr op -> is_here (fr_code fr) (fr_ip fr) op = true.
  Proof.
    intros (pre & post & -> & ->). unfold is_here. rewrite at_here.
    apply bytes_eqb_spec. rewrite firstn_app, Nat.sub_diag, firstn_all, firstn_O. apply app_nil_r.
  Qed.
  Lemma instruction_less fr b tok : instruction fr (b :: tok) -> instruction fr [b].
  Proof. intros (pre & post & E & I). exists pre, (tok ++ post). split; [|exact I]. exact E. Qed.
  Lemma token_is fr b tok : instruction fr (b :: tok) -> List.length tok = 4%nat -> token (fr_code fr) (fr_ip fr) = Z.to_N (number tok).
  Proof.
    intros (pre & post & -> & ->) L. unfold token. rewrite number_le_dec, N2Z.id. f_equal.
    replace (N.to_nat (len pre) + 1)%nat with (N.to_nat (len (pre ++ [b]))) by (rewrite len_app; unfold len; cbn; lia).
    replace (pre ++ (b :: tok) ++ post) with ((pre ++ [b]) ++ tok ++ post) by (rewrite <- app_assoc; reflexivity).
    rewrite at_here. rewrite firstn_app, L, Nat.sub_diag, firstn_O, <- L, firstn_all. apply app_nil_r.
  Qed.
  Lemma byte_size_is t ok n : byte_size t ok = true -> size (c_types v0) t n -> ok n = true.
  Proof.
    unfold byte_size. intros H Sz. destruct (type_size 20 Debug t v0) as [k s1|e s1|w|w|] eqn:E; try discriminate H.
    destruct (type_size_run _ _ W0 _ _ _ _ E) as (_ & m & Sm & [_ C]). rewrite (size_unique _ _ _ _ Sz Sm), <- (C eq_refl). exact H.
  Qed.
  Lemma same_list {A} (a b l : list A) : b = a ++ l -> List.length b = List.length a -> b = a.
  Proof. intros -> H. rewrite app_length in H. destruct l; [apply app_nil_r|cbn in H; lia]. Qed.
  Lemma roomy_is s o k n : c_types (x_vm s) = c_types v0 -> roomy s o k = true -> object_bytes s o n -> k <= n.
  Proof.
    intros T R (id & t & ti & (_ & before & after & M & O) & Et & En & Sz). rewrite T in *. unfold roomy in R. rewrite forallb_forall in R.
    assert (Hid : le_dec (firstn 4 (skipn (N.to_nat (o_off o) + 1) (memory s))) = ti_id ti).
    { rewrite M. rewrite N.add_0_r in O. rewrite <- O.
      replace (N.to_nat (len before) + 1)%nat with (N.to_nat (len (before ++ [x00]))) by (rewrite len_app; unfold len; cbn; lia).
      replace (before ++ ([x00] ++ id) ++ after) with ((before ++ [x00]) ++ id ++ after) by (rewrite <- !app_assoc; reflexivity).
      rewrite at_here. destruct En as [L Nu]. rewrite firstn_app, L, Nat.sub_diag, firstn_O, <- L, firstn_all, app_nil_r.
      rewrite number_le_dec in Nu. now apply N2Z.inj in Nu. }
    assert (Ht : In t (seq 0 (List.length (c_types v0)))) by (apply in_seq; split; [lia|apply nth_error_Some; congruence]).
    specialize (R t Ht). rewrite Et, Hid, N.eqb_refl in R. apply orb_true_iff in R as [R|R]; [discriminate R|]. apply N.leb_le. exact (byte_size_is t (fun n => k <=? n) n R Sz).
  Qed.
  Lemma rows_is {A} (sel : assembly_info -> list A) a ai r x :
    nth_error (c_arena v0) a = Some (Some ai) -> nth_error (sel ai) (N.to_nat r) = Some x -> forall k, rows sel a (k + (r + 1) - k) = Some x.
  Proof. intros Ea Ex k. unfold rows. rewrite Ea. replace (k + (r + 1) - k - 1) with r by lia.
    assert (N.to_nat r < List.length (sel ai))%nat by (apply nth_error_Some; congruence).
    destruct (N.ltb_spec r (len (sel ai))); [exact Ex|unfold len in *; lia].
  Qed.

  Theorem avoids_sound p x : grows v0 (x_vm (state_of x)) -> avoids x = true -> ~ hazard p x.
  Proof.
    intros G V. unfold avoids in V. cbv zeta in V. apply andb_true_iff in V as [V Vf].
    repeat match type of V with (_ && _) = true => let X := fresh "V" in apply andb_true_iff in V as [V X] end.
    apply Nat.eqb_eq in V, V3. apply N.leb_le in V0, V1, V2.
    assert (T : c_types (x_vm (state_of x)) = c_types v0) by (destruct (gr_types _ _ G) as [l E]; exact (same_list _ _ _ E V)).
    assert (Ar : c_arena (x_vm (state_of x)) = c_arena v0) by (destruct (gr_arena _ _ G) as [l E]; exact (same_list _ _ _ E V3)).
    clear V V3 G. intro Hz.
    destruct Hz as [x X|x X|x X|fr s op n Io In X|fr s tok f v o rest k n Io L D Eo Wk Ob X|fr s tok f o rest v nm k n Io L D Eo Tn Nm Wk Ob X
      |fr s tok m n _ Io L D Sz X|fr s tok t k rest n _ Io L D Eo Sz X]; cbn [state_of] in *; try lia;
      repeat match type of Vf with (_ && _) = true => let Y := fresh "U" in apply andb_true_iff in Vf as [Vf Y] end.
    - rewrite forallb_forall in Vf. specialize (Vf _ In). cbn [fst snd] in Vf. rewrite (instruction_here _ _ Io) in Vf.
      apply N.leb_le in Vf. lia.
    - rewrite (instruction_here _ _ (instruction_less _ _ _ Io)) in U2.  rewrite Eo, Wk in U2.
      unfold field_at in U2. rewrite (token_is _ _ _ Io L) in U2. destruct D as (ai & r & Ea & _ & E & Er). rewrite Ar in Ea.
      rewrite E, (rows_is a_fields _ _ _ _ Ea Er) in U2. pose proof (roomy_is _ _ _ _ T U2 Ob). lia.
    - rewrite (instruction_here _ _ (instruction_less _ _ _ Io)) in U1.  rewrite Eo in U1.
      unfold field_at in U1. rewrite (token_is _ _ _ Io L) in U1. destruct D as (ai & r & Ea & _ & E & Er). rewrite Ar in Ea.
      rewrite E, (rows_is a_fields _ _ _ _ Ea Er) in U1. pose proof (roomy_is _ _ _ _ T U1 Ob).
      assert (k <= 8) by (destruct v as [[]| | |]; cbn in Wk; (discriminate Wk || (injection Wk as <-; lia))). lia.
    - rewrite (instruction_here _ _ (instruction_less _ _ _ Io)) in U0.  cbv zeta in U0. cbn [forallb] in U0.
      rewrite (token_is _ _ _ Io L) in U0. rewrite T in Sz. destruct D as (ai & r & Ea & _ & D). rewrite Ar in Ea.
      apply andb_true_iff in U0 as [U0 U3]. apply andb_true_iff in U3 as [U3 _]. destruct D as [[E Er]|[E Er]]; rewrite E in *.
      + rewrite (rows_is a_method_defs _ _ _ _ Ea Er) in U0. apply (byte_size_is _ _ _ U0) in Sz. apply N.ltb_lt in Sz. lia.
      + rewrite (rows_is a_method_refs _ _ _ _ Ea Er) in U3. apply (byte_size_is _ _ _ U3) in Sz. apply N.ltb_lt in Sz. lia.
    - rewrite (instruction_here _ _ (instruction_less _ _ _ Io)) in U.  rewrite Eo in U. cbv zeta in U. cbn [forallb] in U.
      rewrite (token_is _ _ _ Io L) in U. rewrite T in Sz. destruct D as (ai & r & Ea & _ & D). rewrite Ar in Ea.
      apply andb_true_iff in U as [U U3]. apply andb_true_iff in U3 as [U3 _]. destruct D as [[E Er]|[E Er]]; rewrite E in *.
      + rewrite (rows_is a_types _ _ _ _ Ea Er) in U. apply (byte_size_is _ _ _ U) in Sz. apply N.ltb_lt in Sz. lia.
      + rewrite (rows_is a_type_refs _ _ _ _ Ea Er) in U3. apply (byte_size_is _ _ _ U3) in Sz. apply N.ltb_lt in Sz. lia.
  Qed.
End Check.

(** An execution that passes the check meets no hazard. *)
Theorem survey_safe p n m params s : consistent Debug s -> consistent p s -> survey (avoids s) n p (start m params s) = true ->
  forall x, reaches p (start m params s) x -> ~ hazard p x.
Proof.
  intros D W V x H. apply (avoids_sound s D); [|exact (survey_complete _ _ _ _ H _ V)]. exact (proj2 (reaches_grows _ _ _ H W)).
Qed.

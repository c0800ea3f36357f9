(** Where loading puts the fields of every type. *)
From Coq Require Import NArith String List Bool Lia Arith.
From Coq.Strings Require Import Byte.
From Verif Require Import Base BaseFacts BinaryReader Pe Attributes Tables Blob Metadata Runtime Loader SpecRuntime
  RuntimeInv Value Opcodes Gc Interp InterpInv SpecExec SpecFrames InterpFacts FrameFacts TraceFacts VmFacts TypeFacts SpecHistory HistoryProofs LayoutFacts SpecTypes SpecOffsets.
Import ListNotations.
Open Scope N_scope.

(** What sizes depend on. *)
Definition looks (ti : type_info) := (ti_full_name ti, ti_base ti, ti_fields ti, ti_interfaces ti).
Definition closed (ts : list type_info) : Prop := forall t ti, nth_error ts t = Some ti ->
  (forall u, ti_base ti = Some u -> (u < List.length ts)%nat) /\
  Forall (fun i => (i < List.length ts)%nat) (ti_interfaces ti) /\
  Forall (fun f => (f_type f < List.length ts)%nat) (ti_fields ti).

(** ** Sizes depend on the types that can be reached only *)
Section Same.
  Variables ts ts' : list type_info.
  Hypothesis C : closed ts.
  Hypothesis E : forall u ti, nth_error ts u = Some ti -> exists ti', nth_error ts' u = Some ti' /\ looks ti' = looks ti.

  Lemma same_named u n : (u < List.length ts)%nat -> is_named ts u n <-> is_named ts' u n.
  Proof.
    intro L. destruct (nth_error ts u) as [ti|] eqn:X; [|apply nth_error_None in X; lia].
    destruct (E _ _ X) as (ti' & X' & K). injection K as K _ _ _. unfold is_named. rewrite X, X'.
    split; intros (y & Y & N); injection Y as <-; eexists; (split; [reflexivity|]); congruence.
  Qed.
  Lemma same_ancestor u v : ancestor ts u v -> (u < List.length ts)%nat -> ancestor ts' u v /\ (v < List.length ts)%nat.
  Proof.
    induction 1 as [t|t ti u v X B A IH]; intro L; [split; [constructor|exact L]|].
    destruct (E _ _ X) as (ti' & X' & K). injection K as _ K _ _. destruct (C _ _ X) as (Cb & _).
    destruct (IH (Cb _ B)) as [A' L']. split; [|exact L']. apply by_base with ti' u; [exact X'|congruence|exact A'].
  Qed.
  Lemma same_ancestor_back u v : ancestor ts' u v -> (u < List.length ts)%nat -> ancestor ts u v /\ (v < List.length ts)%nat.
  Proof.
    induction 1 as [t|t ti u v X B A IH]; intro L; [split; [constructor|exact L]|].
    destruct (nth_error ts t) as [ti0|] eqn:X0; [|apply nth_error_None in X0; lia].
    destruct (E _ _ X0) as (ti' & X' & K). injection K as _ K _ _. destruct (C _ _ X0) as (Cb & _).
    assert (ti_base ti0 = Some u) as B0 by congruence.
    destruct (IH (Cb _ B0)) as [A' L']. split; [|exact L']. eapply by_base; eauto.
  Qed.
  Lemma same_rooted u n : (u < List.length ts)%nat -> rooted ts u n <-> rooted ts' u n.
  Proof.
    intro L. split.
    - intros [v A N|v vi i A X B I N].
      + destruct (same_ancestor _ _ A L) as [A' L']. apply rooted_class with v; [exact A'|]. now apply same_named.
      + destruct (same_ancestor _ _ A L) as [A' L']. destruct (E _ _ X) as (vi' & X' & K). injection K as _ K1 _ K2.
        destruct (C _ _ X) as (_ & CI & _). rewrite Forall_forall in CI.
        apply rooted_interface with v vi' i; auto; [congruence|now rewrite K2|]. apply same_named; auto.
    - intros [v A N|v vi i A X B I N].
      + destruct (same_ancestor_back _ _ A L) as [A' L']. apply rooted_class with v; [exact A'|]. now apply same_named.
      + destruct (same_ancestor_back _ _ A L) as [A' L'].
        destruct (nth_error ts v) as [v0|] eqn:X0; [|apply nth_error_None in X0; lia].
        destruct (E _ _ X0) as (vi' & X' & K). injection K as _ K1 _ K2. assert (vi' = vi) as -> by congruence.
        destruct (C _ _ X0) as (_ & CI & _). rewrite Forall_forall in CI. rewrite K2 in I.
        apply rooted_interface with v v0 i; auto; [congruence|]. apply same_named; auto.
  Qed.
  Lemma same_width u k : (u < List.length ts)%nat -> width ts u k <-> width ts' u k.
  Proof. intro L. unfold width. split; intros (x & Hx & N); exists x; (split; [exact Hx|]); now apply same_named. Qed.
  Lemma same_sizes :
    (forall t n, size ts t n -> size ts' t n) /\
    (forall l n, fields_size ts l n -> Forall (fun f => (f_type f < List.length ts)%nat) l -> fields_size ts' l n) /\
    (forall t n, storage ts t n -> (t < List.length ts)%nat -> storage ts' t n).
  Proof.
    apply sizes_ind.
    - intros t k Wd. apply size_primitive. apply same_width; [|exact Wd]. destruct Wd as (x & _ & y & X & _). eapply nth_lt; eauto.
    - intros t ti n X NW B F IH. pose proof (nth_lt _ _ _ X) as L. destruct (E _ _ X) as (ti' & X' & K). injection K as _ K1 K2 _.
      rewrite <- K2 in *. apply size_root with ti'; auto; [|congruence|].
      + intros k Wd. apply same_width in Wd; [|exact L]. exact (NW _ Wd).
      + apply IH. rewrite K2. apply (C _ _ X).
    - intros t ti b n m X NW B F IH S IHS. pose proof (nth_lt _ _ _ X) as L. destruct (E _ _ X) as (ti' & X' & K). injection K as _ K1 K2 _.
      rewrite <- K2 in *. apply size_derived with ti' b; auto; [|congruence|].
      + intros k Wd. apply same_width in Wd; [|exact L]. exact (NW _ Wd).
      + apply IH. rewrite K2. apply (C _ _ X).
    - constructor.
    - intros f l n St F IH H. inversion H; subst. constructor; auto.
    - intros f l n k St S IHS F IH H. inversion H; subst. apply fields_one; auto.
    - intros t NV L. constructor. intro V. apply same_rooted in V; [|exact L]. exact (NV V).
    - intros t n V S IH L. constructor; [|exact IH]. now apply same_rooted.
  Qed.
End Same.

(** ** The registry at an earlier moment *)

Lemma nth_seq_map {A B} (f : nat -> A -> B) : forall (l : list A) s u,
  nth_error (map (fun '(i, x) => f i x) (combine (seq s (List.length l)) l)) u = option_map (f (s + u)%nat) (nth_error l u).
Proof.
  induction l as [|x l IH]; intros s [|u]; cbn [List.length seq combine map nth_error option_map]; auto.
  - now rewrite Nat.add_0_r.
  - rewrite IH. now rewrite Nat.add_succ_r.
Qed.
Lemma types_then_nth ts m n t k u : nth_error (types_then ts m n t k) u = option_map (as_then m n t k u) (nth_error ts u).
Proof. unfold types_then. now rewrite nth_seq_map. Qed.

(** [ts'] is how the registry [ts] looked when type [t] had [k] fields. *)
Record snapshot (ts : list type_info) (m n t k : nat) (ts' : list type_info) : Prop := {
  sn_closed : closed ts';
  sn_looks : forall u ti', nth_error ts' u = Some ti' -> exists ti, nth_error ts u = Some ti /\ looks ti' = looks (as_then m n t k u ti);
  sn_length : exists ti, nth_error ts t = Some ti /\ (k <= List.length (ti_fields ti))%nat }.
Lemma snapshot_size ts m n t k ts' u z : snapshot ts m n t k ts' -> size ts' u z -> size (types_then ts m n t k) u z.
Proof.
  intros [C E _]. apply (same_sizes ts' (types_then ts m n t k) C). intros v ti' X. destruct (E _ _ X) as (ti & X' & K).
  exists (as_then m n t k v ti). rewrite types_then_nth, X'. auto.
Qed.

(** What happens to the registry after the fields of [t] have been begun. *)
Definition goes_on (m n t : nat) (ts ts2 : list type_info) : Prop :=
  forall u ti, nth_error ts u = Some ti -> exists ti2, nth_error ts2 u = Some ti2 /\ ti_full_name ti2 = ti_full_name ti /\
    ((m <= u)%nat \/ ti2 = ti) /\
    ((t < u < m + n)%nat \/ ti_base ti2 = ti_base ti /\ exists l, ti_fields ti2 = ti_fields ti ++ l /\ (u = t \/ l = [])).
Lemma goes_on_refl m n t ts : goes_on m n t ts ts.
Proof. intros u ti X. exists ti. repeat (split; auto). right. split; [reflexivity|]. exists []. rewrite app_nil_r. auto. Qed.
Lemma goes_on_trans m n t a b c : goes_on m n t a b -> goes_on m n t b c -> goes_on m n t a c.
Proof.
  intros H K u ti X. destruct (H _ _ X) as (ti1 & X1 & N1 & O1 & B1). destruct (K _ _ X1) as (ti2 & X2 & N2 & O2 & B2).
  exists ti2. split; [exact X2|]. split; [congruence|]. split.
  - destruct O1 as [|O1]; auto. destruct O2 as [|O2]; auto. right. congruence.
  - destruct B1 as [|[B1 (l1 & F1 & L1)]]; auto. destruct B2 as [|[B2 (l2 & F2 & L2)]]; auto. right. split; [congruence|].
    exists (l1 ++ l2). split; [now rewrite F2, F1, app_assoc|]. destruct L1 as [|L1]; auto. destruct L2 as [|L2]; auto.
    right. now subst.
Qed.
Lemma goes_on_prefix m n t ts more : goes_on m n t ts (ts ++ more).
Proof.
  intros u ti X. exists ti. split; [rewrite nth_error_app1; [exact X|eapply nth_lt; eauto]|].
  repeat (split; auto). right. split; [reflexivity|]. exists []. rewrite app_nil_r. auto.
Qed.
Lemma goes_on_sprouts m n t s s' : sprouts s s' -> goes_on m n t (c_types s) (c_types s').
Proof. intros (l & -> & _). apply goes_on_prefix. Qed.
(** A change of type [v] of the assembly. *)
Lemma goes_on_update m n t ts v f : (m <= v)%nat -> (forall ti, ti_full_name (f ti) = ti_full_name ti) ->
  (forall ti, (t < v < m + n)%nat \/ ti_base (f ti) = ti_base ti /\ exists l, ti_fields (f ti) = ti_fields ti ++ l /\ (v = t \/ l = [])) ->
  goes_on m n t ts (update ts v f).
Proof.
  intros Hv Nf Ff u ti X. rewrite nth_update. destruct (Nat.eqb_spec v u) as [->|D].
  - rewrite X. cbn [option_map]. exists (f ti). auto.
  - destruct (goes_on_refl m n t ts u ti X) as (ti2 & X2 & R). exists ti2. auto.
Qed.

Lemma as_then_looks m n t k u ti ti2 : ti_full_name ti2 = ti_full_name ti -> ((m <= u)%nat \/ ti2 = ti) ->
  ((t < u < m + n)%nat \/ ti_base ti2 = ti_base ti /\ exists l, ti_fields ti2 = ti_fields ti ++ l /\ (u = t \/ l = [])) ->
  (u = t -> (k <= List.length (ti_fields ti))%nat) ->
  looks (as_then m n t k u ti2) = looks (as_then m n t k u ti).
Proof.
  intros N O B K. unfold as_then. destruct (Nat.ltb_spec u m) as [L|L].
  - destruct O as [O| ->]; [lia|reflexivity].
  - unfold looks. cbn [ti_full_name ti_base ti_fields ti_interfaces]. rewrite N.
    destruct (Nat.ltb_spec t u), (Nat.ltb_spec u (m + n)); cbn [andb]; try reflexivity;
      (destruct B as [|[B (l & F & R)]]; [lia|]; rewrite B, F; f_equal; f_equal).
    all: destruct (Nat.eqb_spec u t) as [E|D]; [|destruct R as [| ->]; [lia|now rewrite app_nil_r]].
    all: rewrite firstn_app; specialize (K E); replace (k - List.length (ti_fields ti))%nat with 0%nat by lia; cbn [firstn]; now rewrite app_nil_r.
Qed.
Lemma snapshot_goes_on ts ts2 m n t k ts' : goes_on m n t ts ts2 -> snapshot ts m n t k ts' -> snapshot ts2 m n t k ts'.
Proof.
  intros G [C E (tt & Xt & Lt)]. split; [exact C| |].
  - intros u ti' X'. destruct (E _ _ X') as (ti & X & K). destruct (G _ _ X) as (ti2 & X2 & N & O & B). exists ti2.
    split; [exact X2|]. rewrite K. symmetry. apply as_then_looks; auto. intros ->. congruence.
  - destruct (G _ _ Xt) as (t2 & X2 & _ & _ & [B|[_ (l & F & _)]]); [lia|]. exists t2. split; [exact X2|]. rewrite F, app_length. lia.
Qed.

(** ** The fields of one type *)

Section Fields.
  Variable p : profile.
  Variables m n : nat.

  Inductive run (ts : list type_info) (t : tref) : nat -> N -> list field_info -> list N -> Prop :=
  | run_nil k o : run ts t k o [] []
  | run_cons k o f l z zs ts' : computed p o (f_offset f) -> snapshot ts m n t (S k) ts' -> size ts' (f_type f) z ->
      run ts t (S k) (o + z) l zs -> run ts t k o (f :: l) (z :: zs).
  Definition begun (ts : list type_info) (t : tref) (b : option tref) (o : N) : Prop :=
    match b with
    | None => o = 0
    | Some b => exists ts', snapshot ts m n t 0 ts' /\ size ts' b o
    end.
  Definition put (ts : list type_info) (t : tref) (ti : type_info) (o : N) : Prop :=
    exists o0 zs, begun ts t (ti_base ti) o0 /\ run ts t 0 o0 (ti_fields ti) zs /\ o = o0 + sum zs.

  Lemma run_goes_on ts ts2 t : goes_on m n t ts ts2 -> forall k o l zs, run ts t k o l zs -> run ts2 t k o l zs.
  Proof. intros G k o l zs H. induction H; econstructor; eauto. eapply snapshot_goes_on; eauto. Qed.
  Lemma begun_goes_on ts ts2 t b o : goes_on m n t ts ts2 -> begun ts t b o -> begun ts2 t b o.
  Proof. intros G. destruct b as [b|]; [|auto]. intros (ts' & S & Z). exists ts'. split; [eapply snapshot_goes_on; eauto|exact Z]. Qed.
  Lemma run_snoc ts t : forall k o l zs, run ts t k o l zs -> forall f z ts', computed p (o + sum zs) (f_offset f) ->
    snapshot ts m n t (S (k + List.length l)) ts' -> size ts' (f_type f) z -> run ts t k o (l ++ [f]) (zs ++ [z]).
  Proof.
    induction 1 as [k o|k o f l z zs ts' C S Z R IH]; intros g y ts'' Cg Sg Zg; cbn [app].
    - cbn [List.length] in Sg. rewrite Nat.add_0_r in Sg. cbn in Cg. rewrite N.add_0_r in Cg. econstructor; eauto. constructor.
    - econstructor; eauto. eapply IH; [|cbn [List.length] in Sg; rewrite Nat.add_succ_r in Sg; exact Sg|exact Zg].
      cbn [sum fold_right] in Cg. fold (sum zs) in Cg. now rewrite <- N.add_assoc.
  Qed.
  Lemma sum_snoc zs z : sum (zs ++ [z]) = sum zs + z.
  Proof. unfold sum. induction zs as [|x zs IH]; cbn; [lia|]. rewrite IH. lia. Qed.

  (** From here to the statement of the specification. *)
  Lemma run_offsets ts t : forall k o l zs, run ts t k o l zs -> List.length zs = List.length l /\
    (forall i f z, nth_error l i = Some f -> nth_error zs i = Some z -> size (types_then ts m n t (S (k + i))) (f_type f) z) /\
    (forall i f, nth_error l i = Some f -> computed p (o + sum (firstn i zs)) (f_offset f)).
  Proof.
    induction 1 as [k o|k o f l z zs ts' C S Z R (IL & IZ & IO)].
    - split; [reflexivity|]. split; intros [|i]; discriminate.
    - split; [cbn; now rewrite IL|]. split.
      + intros [|i] g y Eg Ey; cbn [nth_error] in *.
        * injection Eg as <-. injection Ey as <-. rewrite Nat.add_0_r. eapply snapshot_size; eauto.
        * rewrite Nat.add_succ_r. exact (IZ _ _ _ Eg Ey).
      + intros [|i] g Eg; cbn [nth_error firstn] in *.
        * injection Eg as <-. cbn. now rewrite N.add_0_r.
        * cbn [sum fold_right]. fold (sum (firstn i zs)). rewrite N.add_assoc. auto.
  Qed.
  Lemma put_offsets ts t ti o : put ts t ti o -> exists base sizes, offsets p ts m n t ti base sizes.
  Proof.
    intros (o0 & zs & B & R & _). destruct (run_offsets _ _ _ _ _ _ R) as (L & Z & O). exists o0, zs. split; auto.
    destruct (ti_base ti) as [b|]; [|exact B]. destruct B as (ts' & S & Zb). eapply snapshot_size; eauto.
  Qed.

  (** ** While the types of the assembly are filled *)

  (** The types from [t] on wait for their members. *)
  Definition pending (t : nat) (ts : list type_info) : Prop :=
    (m + n <= List.length ts)%nat /\
    forall u ti, nth_error ts u = Some ti ->
      ((m <= u)%nat -> ti_interfaces ti = []) /\ ((t <= u)%nat -> ti_fields ti = []) /\ ((t <= u < m + n)%nat -> ti_base ti = None).
  Lemma pending_le t t' ts : (t <= t')%nat -> pending t ts -> pending t' ts.
  Proof. intros L [A B]. split; [exact A|]. intros u ti X. destruct (B u ti X) as (I & F & Bs). repeat split; intros; [apply I|apply F|apply Bs]; lia. Qed.
  Lemma pending_sprouts t s s' : sprouts s s' -> pending t (c_types s) -> (m <= t)%nat -> pending t (c_types s').
  Proof.
    intros (l & E & F) [A B] Lt. rewrite E. split; [rewrite app_length; lia|]. intros u ti X.
    destruct (Nat.lt_ge_cases u (List.length (c_types s))) as [L|L].
    - rewrite nth_error_app1 in X by exact L. exact (B u ti X).
    - rewrite nth_error_app2 in X by exact L. apply nth_error_In in X. rewrite Forall_forall in F. destruct (F _ X) as (F1 & _ & F3 & _).
      split; [auto|]. split; [auto|]. lia.
  Qed.
  Lemma length_update' (ts : list type_info) t f : List.length (update ts t f) = List.length ts.
  Proof. apply length_update. Qed.
  Lemma pending_update t v f ts : (forall ti, ti_interfaces (f ti) = ti_interfaces ti) ->
    ((v < t)%nat \/ forall ti, ti_fields (f ti) = ti_fields ti /\ ti_base (f ti) = ti_base ti) -> pending t ts -> pending t (update ts v f).
  Proof.
    intros If Ff [A B]. split; [now rewrite length_update|]. intros u ti X. apply nth_update_inv in X as (y & Y & ->).
    destruct (B u y Y) as (I & F & Bs). destruct (Nat.eqb_spec v u) as [->|]; [|auto].
    rewrite If. split; [exact I|]. destruct Ff as [L|Ff]; [split; lia|]. destruct (Ff y) as [-> ->]. auto.
  Qed.
  Lemma now_snapshot t s ti : consistent p s -> (m <= t < m + n)%nat -> pending (S t) (c_types s) -> nth_error (c_types s) t = Some ti ->
    snapshot (c_types s) m n t (List.length (ti_fields ti)) (c_types s).
  Proof.
    intros W Lt [A B] X. split.
    - intros u ui Xu. exact (consistent_closed _ _ _ _ W Xu).
    - intros u ui Xu. exists ui. split; [exact Xu|]. destruct (B _ _ Xu) as (I & F & Bs). unfold as_then.
      destruct (Nat.ltb_spec u m) as [L|L]; [reflexivity|]. unfold looks. cbn [ti_full_name ti_base ti_fields ti_interfaces].
      rewrite (I L). destruct (Nat.ltb_spec t u) as [L1|L1], (Nat.ltb_spec u (m + n)) as [L2|L2]; cbn [andb].
      + rewrite F, Bs by lia. reflexivity.
      + destruct (Nat.eqb_spec u t); [lia|reflexivity].
      + destruct (Nat.eqb_spec u t) as [->|]; [|reflexivity]. assert (ui = ti) as -> by congruence. now rewrite firstn_all.
      + destruct (Nat.eqb_spec u t); [lia|reflexivity].
    - exists ti. auto.
  Qed.

  (** The types below [t] have their fields. *)
  Definition finished (t : nat) (ts : list type_info) : Prop :=
    forall u ti, (m <= u < t)%nat -> nth_error ts u = Some ti -> exists o, put ts u ti o.
  (** Nothing happens to the types below [t]. *)
  Definition leaves (t : nat) (ts ts2 : list type_info) : Prop := forall u, (m <= u < t)%nat ->
    goes_on m n u ts ts2 /\ forall ti, nth_error ts2 u = Some ti -> exists ti0, nth_error ts u = Some ti0 /\ ti_base ti = ti_base ti0 /\ ti_fields ti = ti_fields ti0.
  Lemma finished_leaves t ts ts2 : leaves t ts ts2 -> finished t ts -> finished t ts2.
  Proof.
    intros L F u ti Lu X. destruct (L u Lu) as (G & K). destruct (K _ X) as (t0 & X0 & B & Fs). destruct (F u t0 Lu X0) as (o & o0 & zs & Bg & R & E).
    exists o, o0, zs. rewrite B, Fs. split; [eapply begun_goes_on; eauto|]. split; [eapply run_goes_on; eauto|exact E].
  Qed.
  Lemma leaves_refl t ts : leaves t ts ts.
  Proof. intros u _. split; [apply goes_on_refl|eauto]. Qed.
  Lemma leaves_sprouts t s s' : sprouts s s' -> (t <= List.length (c_types s))%nat -> leaves t (c_types s) (c_types s').
  Proof.
    intros S L u Lu. split; [now apply goes_on_sprouts|]. destruct S as (l & -> & _). intros ti X. exists ti. rewrite nth_error_app1 in X by lia. auto.
  Qed.
  Lemma leaves_update t v f ts : (m <= v)%nat -> (forall ti, ti_full_name (f ti) = ti_full_name ti) ->
    ((t <= v < m + n)%nat \/ forall ti, ti_fields (f ti) = ti_fields ti /\ ti_base (f ti) = ti_base ti) -> leaves t ts (update ts v f).
  Proof.
    intros Lv Nf Ff u Lu. split.
    - apply goes_on_update; auto. intro ti. destruct Ff as [|Ff]; [left; lia|right]. destruct (Ff ti) as [-> ->].
      split; [reflexivity|]. exists []. rewrite app_nil_r. auto.
    - intros ti X. apply nth_update_inv in X as (y & Y & ->). exists y. split; [exact Y|]. destruct (Nat.eqb_spec v u); [|auto].
      destruct Ff as [|Ff]; [lia|]. destruct (Ff y). auto.
  Qed.
End Fields.

(** ** Loading the types of an assembly *)

Definition on_ok {A} (P : vm -> Prop) (r : res vm A) : Prop := match r with Ok _ s' => P s' | _ => True end.
Lemma ok_bind {A B} (P Q : vm -> Prop) (f : M vm A) (k : A -> M vm B) s :
  on_ok P (f s) -> (forall a s', f s = Ok a s' -> P s' -> on_ok Q (k a s')) -> on_ok Q (bind f k s).
Proof. unfold on_ok, bind. intros H K. destruct (f s) as [a s1|e s1|w|w|] eqn:E; auto. exact (K a s1 eq_refl H). Qed.
Lemma ok_pure {A B} (Q : vm -> Prop) (f : M vm A) (k : A -> M vm B) s :
  pure f -> (forall a, f s = Ok a s -> on_ok Q (k a s)) -> on_ok Q (bind f k s).
Proof. unfold on_ok, bind. intros H K. specialize (H s). destruct (f s) as [a s1|e s1|w|w|]; subst; auto. exact (K a eq_refl). Qed.

Section Loading.
  Variables (p : profile) (md : metadata) (a0 : aref) (m n : nat).
  (** Before and after the base of [t] is known, and when it has its fields. *)
  Definition ready (t : nat) (s : vm) : Prop := pending m n t (c_types s) /\ finished p m n t (c_types s).
  Definition half (t : nat) (s : vm) : Prop := pending m n (S t) (c_types s) /\ finished p m n t (c_types s).
  Definition bare_at (t : nat) (s : vm) : Prop := half t s /\ forall ti, nth_error (c_types s) t = Some ti -> ti_fields ti = [].

  Lemma pending_length t s : pending m n t (c_types s) -> (m + n <= List.length (c_types s))%nat.
  Proof. intros [A _]. exact A. Qed.
  Lemma half_sprouts t s s' : (m <= t < m + n)%nat -> sprouts s s' -> half t s -> half t s'.
  Proof.
    intros L S [P F]. pose proof (pending_length _ _ P). split; [apply pending_sprouts with s; auto; lia|].
    eapply finished_leaves; [|exact F]. apply leaves_sprouts; [exact S|lia].
  Qed.
  Lemma half_update t f s : (m <= t < m + n)%nat -> (forall ti, ti_full_name (f ti) = ti_full_name ti) ->
    (forall ti, ti_interfaces (f ti) = ti_interfaces ti) -> half t s -> half t (set_types s (update (c_types s) t f)).
  Proof.
    intros L Nf If [P F]. split; cbn [c_types set_types].
    - apply pending_update; auto.
    - eapply finished_leaves; [|exact F]. apply leaves_update; [lia|auto|left; lia].
  Qed.
  Lemma bare_update t f s : (m <= t < m + n)%nat -> (forall ti, ti_full_name (f ti) = ti_full_name ti) ->
    (forall ti, ti_interfaces (f ti) = ti_interfaces ti) -> (forall ti, ti_fields (f ti) = ti_fields ti) -> bare_at t s ->
    bare_at t (set_types s (update (c_types s) t f)).
  Proof.
    intros L Nf If Ff [H B]. split; [now apply half_update|]. cbn [c_types set_types]. intros ti X.
    apply nth_update_inv in X as (y & Y & ->). rewrite Nat.eqb_refl, Ff. auto.
  Qed.
  Lemma ready_bare t s : (m <= t)%nat -> ready t s -> bare_at t s.
  Proof.
    intros L [P F]. split; [split; [eapply pending_le; [|exact P]; lia|exact F]|].
    intros ti X. destruct P as [_ P]. destruct (P _ _ X) as (_ & Fs & _). apply Fs. lia.
  Qed.

  Lemma resolve_base_bare t i s : (m <= t < m + n)%nat -> bare_at t s -> on_ok (bare_at t) (resolve_base p md t i s).
  Proof.
    intros L H. unfold resolve_base. apply ok_pure; [apply pure_row_at|]. intros d _.
    assert (K : on_ok (bare_at t) (bind (type_def_or_ref_name p md (td_extends d)) (fun o =>
       bind (match o with Some n => get_type n | None => ret None end) (fun b =>
       bind (ok_or b "Unable to find base type") (fun b => modify_type t (with_base (Some b))))) s)).
    { apply ok_pure; [apply pure_type_def_or_ref_name|intros o _].
      apply ok_pure; [destruct o; [apply pure_get_type|apply pure_ret]|intros b _].
      apply ok_pure; [apply pure_ok_or|intros x _]. apply bare_update; auto. }
    destruct (ref_table (td_extends d)); destruct (ref_index (td_extends d)); try exact K. exact H.
  Qed.
  Lemma resolve_kind_bare t i s : (m <= t < m + n)%nat -> bare_at t s -> on_ok (bare_at t) (resolve_kind p md t i s).
  Proof.
    intros L H. unfold resolve_kind. apply ok_pure; [apply pure_row_at|]. intros d _.
    apply ok_pure; [apply pure_the_type|]. intros ti _.
    apply ok_pure; [|intros k _; now apply bare_update].
    destruct (ta_semantics _); [|apply pure_ret]. destruct (ti_base ti); [|apply pure_ret].
    apply pure_bind; [apply pure_the_type|intro]. apply pure_ret.
  Qed.

  (** The next field goes to [o]. *)
  Definition filling_to (t : nat) (o : N) (s : vm) : Prop :=
    half t s /\ exists ti, nth_error (c_types s) t = Some ti /\ put p m n (c_types s) t ti o.
  Lemma filling_to_sprouts t o s s' : (m <= t < m + n)%nat -> sprouts s s' -> filling_to t o s -> filling_to t o s'.
  Proof.
    intros L S [H (ti & X & o0 & zs & B & R & E)]. split; [eapply half_sprouts; eauto|]. exists ti.
    pose proof (goes_on_sprouts m n t _ _ S) as G. split.
    - destruct S as (l & -> & _). rewrite nth_error_app1; [exact X|eapply nth_lt; eauto].
    - exists o0, zs. split; [eapply begun_goes_on; eauto|]. split; [eapply run_goes_on; eauto|exact E].
  Qed.
  Lemma filling_to_ready t o s : (m <= t)%nat -> filling_to t o s -> ready (S t) s.
  Proof.
    intros L [[P F] (ti & X & Pt)]. split; [exact P|]. intros u ui Lu Xu. destruct (Nat.eq_dec u t) as [->|].
    - assert (ui = ti) as -> by congruence. eauto.
    - apply F; [lia|exact Xu].
  Qed.

  Lemma load_fields_to fuel t : forall k i off o s, consistent p s -> loading m a0 s -> mine m a0 s t -> (t < m + n)%nat ->
    computed p o off -> filling_to t o s -> on_ok (ready (S t)) (load_fields fuel p md t k i off s).
  Proof.
    induction k as [|k IH]; intros i off o s W L Mt Lt C F; cbn [load_fields].
    { apply (filling_to_ready t o); [apply Mt|exact F]. }
    assert (Lt2 : (m <= t < m + n)%nat) by (split; [apply Mt|exact Lt]).
    pose proof (sp_load_field p md t i off s) as SP.
    pose proof (pres_in p m a0 s _ _ L (load_field_pres p md t i off s (mine_ref _ _ _ _ Mt))) as P1.
    apply ok_bind with (P := filling_to t o).
    { unfold on_ok. destruct (load_field p md t i off s); auto. eapply filling_to_sprouts; eauto. }
    intros fi s1 E1 F1.
    destruct (pres_run_ok _ _ _ _ _ _ _ P1 W E1) as (W1 & R1 & V1).
    pose proof (loading_within _ _ _ _ L R1) as L1. pose proof (mine_within _ _ _ _ _ Mt R1) as M1.
    pose proof (load_field_offset _ _ _ _ _ _ _ _ E1) as Ho.
    unfold bind at 1. unfold modify_type at 1. set (s2 := set_types s1 (update (c_types s1) t (with_field fi))).
    assert (P2 : pres p (within m a0) s1 (modify_type t (with_field fi)) (fun _ _ => True)).
    { apply modify_type_pres; [apply Mt|intro; repeat split|].
      intros ti (A & B & D & E & G & H & J). repeat split; auto.
      - apply Forall_app. split; [exact D|]. constructor; [exact V1|constructor].
      - constructor; [exact V1|exact H]. }
    destruct (pres_run_ok _ _ _ _ _ _ _ P2 W1 eq_refl) as (W2 & R2 & _). fold s2 in W2, R2.
    pose proof (loading_within _ _ _ _ L1 R2) as L2. pose proof (mine_within _ _ _ _ _ M1 R2) as M2.
    destruct M2 as [M2a (ti & Et & Ea)].
    unfold bind at 1. unfold the_type. rewrite Et, Ea. unfold bind at 1. unfold modify_assembly at 1.
    match goal with |- context [update (c_arena s2) a0 (option_map ?g)] => set (h := g) end.
    set (s3 := set_arena s2 _).
    assert (P3 : pres p (within m a0) s2 (modify_assembly a0 h) (fun _ _ => True)).
    { apply modify_assembly_pres. intros ai (A & B & D & E & G & H). repeat split; auto. apply Forall_app. split; [exact G|].
      constructor; [|constructor]. eapply v_field_mono; [|exact V1]. apply (wi_count _ _ _ _ R2). }
    destruct (pres_run_ok _ _ _ _ _ _ _ P3 W2 eq_refl) as (W3 & R3 & _).
    change (consistent p s3) in W3. change (within m a0 s2 s3) in R3.
    pose proof (loading_within _ _ _ _ L2 R3) as L3.
    pose proof (mine_within _ _ _ _ _ (conj M2a (ex_intro _ ti (conj Et Ea))) R3) as M3.
    unfold bind at 1. destruct (type_size fuel p (f_type fi) s3) as [sz s4|e s4|w|w|] eqn:E4; try exact Logic.I.
    destruct (type_size_run _ _ W3 _ _ _ _ E4) as (-> & z & Sz & Cm).
    unfold bind at 1. destruct (u_add p 64 off sz) as [off'|] eqn:U; cbn [ovf]; [|exact Logic.I].
    unfold ret at 1. apply IH with (o := o + z); auto; [eapply computed_add; eauto|].
    change (c_types s3) with (c_types s2) in Sz.
    assert (F2 : filling_to t (o + z) s2).
    { destruct F1 as [H1 (t1 & X1 & o0 & zs & B & R & E)].
      assert (H2 : half t s2) by (apply half_update; auto).
      split; [exact H2|].
      assert (X2 : nth_error (c_types s2) t = Some (with_field fi t1)) by (unfold s2; cbn [c_types set_types]; now rewrite nth_update, Nat.eqb_refl, X1).
      exists (with_field fi t1). split; [exact X2|].
      assert (G : goes_on m n t (c_types s1) (c_types s2)).
      { apply goes_on_update; [lia|reflexivity|]. intro x. right. split; [reflexivity|]. exists [fi]. auto. }
      exists o0, (zs ++ [z]). cbn [ti_base ti_fields with_field]. split; [eapply begun_goes_on; eauto|]. split; [|rewrite sum_snoc; lia].
      apply run_snoc with (c_types s2); [eapply run_goes_on; eauto|now rewrite <- E, Ho| |exact Sz].
      pose proof (now_snapshot p m n t s2 _ W2 Lt2 (proj1 H2) X2) as Sn. cbn [ti_fields with_field] in Sn.
      rewrite app_length, Nat.add_1_r in Sn. exact Sn. }
    exact F2.
  Qed.

  Lemma resolve_fields_to fuel t i s : consistent p s -> loading m a0 s -> mine m a0 s t -> (t < m + n)%nat -> bare_at t s ->
    on_ok (ready (S t)) (resolve_fields fuel p md t i s).
  Proof.
    intros W L Mt Lt [H B]. unfold resolve_fields.
    apply ok_pure; [apply pure_row_at|intros d _].
    apply ok_pure; [apply pure_run_length|intros c _].
    apply ok_pure; [apply pure_reserve|intros [] _].
    apply ok_pure; [apply pure_ovf|intros stop _].
    apply ok_pure; [apply pure_the_type|intros ti Et].
    apply ok_pure; [destruct (ti_base ti); [apply pure_type_size|apply pure_ret]|intros off Eo].
    apply ok_pure; [apply pure_the_assembly|intros ai _].
    unfold the_type in Et. destruct (nth_error (c_types s) t) as [x|] eqn:Ex; [|discriminate]. injection Et as <-.
    assert (Lt2 : (m <= t < m + n)%nat) by (split; [apply Mt|exact Lt]).
    pose proof (now_snapshot p m n t s _ W Lt2 (proj1 H) Ex) as Sn. rewrite (B _ eq_refl) in Sn. cbn [List.length] in Sn.
    assert (O : exists o, computed p o off /\ begun m n (c_types s) t (ti_base x) o).
    { destruct (ti_base x) as [b|].
      - destruct (type_size_run _ _ W _ _ _ _ Eo) as (_ & z & Sz & Cm). exists z. split; [exact Cm|]. exists (c_types s). auto.
      - injection Eo as <-. exists 0. split; [now apply computed_small|reflexivity]. }
    destruct O as (o & Co & Bo). apply load_fields_to with (o := o); auto. split; [exact H|]. exists x. split; [exact Ex|].
    exists o, []. split; [exact Bo|]. rewrite (B _ eq_refl). split; [constructor|]. cbn. lia.
  Qed.
  Lemma ready_sprouts t s s' : (m <= t <= m + n)%nat -> sprouts s s' -> ready t s -> ready t s'.
  Proof.
    intros L S [P F]. pose proof (pending_length _ _ P). split; [apply pending_sprouts with s; auto; lia|].
    eapply finished_leaves; [|exact F]. apply leaves_sprouts; [exact S|lia].
  Qed.
  Lemma resolve_methods_ready t i s : (m <= t < m + n)%nat -> ready (S t) s -> on_ok (ready (S t)) (resolve_methods p md t i s).
  Proof.
    intros L H. unfold resolve_methods.
    apply ok_pure; [apply pure_row_at|intros d _].
    apply ok_pure; [apply pure_run_length|intros c _].
    apply ok_pure; [apply pure_reserve|intros [] _].
    apply ok_pure; [apply pure_ovf|intros stop _].
    generalize (N.to_nat (stop - td_method_list d)). intro cnt. revert s H. generalize (td_method_list d).
    induction cnt as [|k IH]; intros j s H; cbn [range_m]; [exact H|].
    apply ok_bind with (P := ready (S t)); auto.
    apply ok_bind with (P := ready (S t)).
    { pose proof (sp_load_method p md t j s) as SP. unfold on_ok. destruct (load_method p md t j s); auto. eapply ready_sprouts; eauto. lia. }
    intros x s1 _ [P F]. split; cbn [c_types set_types].
    - apply pending_update; auto.
    - eapply finished_leaves; [|exact F]. apply leaves_update; [lia|auto|right; auto].
  Qed.
  Lemma resolve_ready fuel t i s : consistent p s -> loading m a0 s -> mine m a0 s t -> (t < m + n)%nat -> ready t s ->
    on_ok (ready (S t)) (resolve fuel p md t i s).
  Proof.
    intros W L Mt Lt H. assert (Lt2 : (m <= t < m + n)%nat) by (split; [apply Mt|exact Lt]). unfold resolve.
    apply ok_bind with (P := bare_at t); [apply resolve_base_bare; auto; apply ready_bare; auto; lia|].
    intros [] s1 E1 H1. destruct (pres_run_ok _ _ _ _ _ _ _ (resolve_base_pres p md m a0 t i s L Mt) W E1) as (W1 & R1 & _).
    pose proof (loading_within _ _ _ _ L R1) as L1. pose proof (mine_within _ _ _ _ _ Mt R1) as M1.
    apply ok_bind with (P := bare_at t); [apply resolve_kind_bare; auto|].
    intros [] s2 E2 H2. destruct (pres_run_ok _ _ _ _ _ _ _ (resolve_kind_pres p md m a0 t i s1 L1 M1) W1 E2) as (W2 & R2 & _).
    pose proof (loading_within _ _ _ _ L1 R2) as L2. pose proof (mine_within _ _ _ _ _ M1 R2) as M2.
    apply ok_bind with (P := ready (S t)); [apply resolve_fields_to; auto|].
    intros [] s3 E3 H3. now apply resolve_methods_ready.
  Qed.
  Lemma resolve_types_ready fuel : forall k t i s, consistent p s -> loading m a0 s -> Forall (mine m a0 s) (seq t k) ->
    (t + k = m + n)%nat -> ready t s -> on_ok (ready (m + n)) (resolve_types fuel p md (seq t k) i s).
  Proof.
    induction k as [|k IH]; intros t i s W L F Lt H; cbn [seq resolve_types].
    - cbn. now replace (m + n)%nat with t by lia.
    - cbn [seq] in F. inversion F as [|? ? Mt F']; subst.
      apply ok_bind with (P := ready (S t)); [apply resolve_ready; auto; lia|].
      intros [] s1 E1 H1. destruct (pres_run_ok _ _ _ _ _ _ _ (resolve_pres p md m a0 fuel t i s L Mt) W E1) as (W1 & R1 & _).
      apply IH; auto; [|  |lia].
      + eapply loading_within; eauto.
      + eapply Forall_impl; [|exact F']. intros u Hu. exact (mine_within _ _ _ _ _ Hu R1).
  Qed.
End Loading.

(** ** A whole assembly *)

Lemma leaves_core m n t ts ts2 :
  (forall u ti, nth_error ts u = Some ti -> exists ti2, nth_error ts2 u = Some ti2 /\ core ti2 = core ti /\ ((u < m)%nat -> ti2 = ti)) ->
  (t <= List.length ts)%nat -> leaves m n t ts ts2.
Proof.
  intros H L u Lu. split.
  - intros v ti X. destruct (H _ _ X) as (ti2 & X2 & C & O). injection C as C1 C2 C3. exists ti2. split; [exact X2|]. split; [exact C1|].
    split; [destruct (Nat.lt_ge_cases v m); auto|]. right. split; [exact C2|]. exists []. rewrite app_nil_r. auto.
  - intros ti2 X2. destruct (nth_error ts u) as [ti|] eqn:X; [|apply nth_error_None in X; lia].
    destruct (H _ _ X) as (ti2' & X2' & C & _). assert (ti2' = ti2) as -> by congruence. injection C as C1 C2 C3. eauto.
Qed.

Section Contents.
  Variables (p : profile) (md : metadata) (a0 : aref) (m n : nat).

  Definition whole (s : vm) : Prop := (m + n <= List.length (c_types s))%nat /\ finished p m n (m + n) (c_types s).
  Lemma load_interface_impl_whole ii s : consistent p s -> loading m a0 s -> rows_named p md m s -> whole s ->
    on_ok whole (load_interface_impl p md ii s).
  Proof.
    intros W L RN [A F].
    assert (K : on_ok (fun s' => exists t i, s' = set_types s (update (c_types s) t (with_interface i))) (load_interface_impl p md ii s)).
    { unfold load_interface_impl.
      assert (FN : forall x y, pure (full_name_at md x y)) by (intros; unfold full_name_at; pur).
      apply ok_pure; [apply pure_row_at|intros d _].
      apply ok_pure; [apply FN|intros fn _].
      apply ok_pure; [apply pure_get_type|intros o _].
      apply ok_pure; [apply pure_unwrap|intros t _].
      apply ok_pure; [|intros ifn _].
      { destruct (ref_table _); try apply pure_panic; (apply pure_bind; [apply pure_row_at|intro; apply FN]). }
      apply ok_pure; [apply pure_get_type|intros o2 _].
      apply ok_pure; [apply pure_unwrap|intros i _].
      exists t, i. reflexivity. }
    unfold on_ok in *. destruct (load_interface_impl p md ii s) as [[] s'|e s'|w|w|] eqn:E; auto.
    destruct (pres_run_ok _ _ _ _ _ _ _ (load_interface_impl_pres p md m a0 ii s L RN) W E) as (_ & R & _).
    pose proof (wi_below _ _ _ _ R) as Bl. destruct K as (t & i & ->). cbn [c_types set_types] in Bl. split; cbn [c_types set_types].
    - now rewrite length_update.
    - eapply finished_leaves; [|exact F]. apply leaves_core; [|exact A]. intros u ti X.
      destruct (nth_error (update (c_types s) t (with_interface i)) u) as [ti2|] eqn:X2.
      + exists ti2. split; [reflexivity|]. split.
        * apply nth_update_inv in X2 as (y & Y & ->). assert (y = ti) as -> by congruence. destruct (Nat.eqb t u); reflexivity.
        * intro Lu. specialize (Bl u Lu). congruence.
      + exfalso. apply nth_error_None in X2. rewrite length_update in X2. apply nth_lt in X. lia.
  Qed.
  Lemma load_interfaces_whole : forall rows s, consistent p s -> loading m a0 s -> rows_named p md m s -> whole s ->
    on_ok whole (iter_m (load_interface_impl p md) rows s).
  Proof.
    induction rows as [|ii rows IH]; intros s W L RN H; cbn [iter_m]; [exact H|].
    apply ok_bind with (P := whole); [now apply load_interface_impl_whole|]. intros [] s1 E H1.
    destruct (pres_run_ok _ _ _ _ _ _ _ (load_interface_impl_pres p md m a0 ii s L RN) W E) as (W1 & R1 & _).
    apply IH; auto; [eapply loading_within; eauto|eapply rows_named_within; eauto].
  Qed.

  Definition complete (s : vm) : Prop := whole s /\ forall ai, nth_error (c_arena s) a0 = Some (Some ai) -> a_types ai = seq m n.
  Lemma complete_modify f s : (forall ai, a_types (f ai) = a_types ai) -> complete s -> on_ok complete (modify_assembly a0 f s).
  Proof.
    intros Hf [A B]. unfold modify_assembly, on_ok. split; [exact A|]. cbn [c_arena set_arena]. intros ai X. rewrite nth_update, Nat.eqb_refl in X.
    destruct (nth_error (c_arena s) a0) as [[x|]|]; try discriminate. injection X as <-. rewrite Hf. auto.
  Qed.
End Contents.

Definition plain (ti : type_info) : Prop := ti_base ti = None /\ ti_fields ti = [] /\ ti_interfaces ti = [].
Lemma load_type_plain p md a0 i s t s' : load_type p md a0 i s = Ok t s' -> exists ti, c_types s' = c_types s ++ [ti] /\ plain ti.
Proof.
  unfold load_type. intro E. apply bind_inv_ok in E as (d & s1 & E1 & E).
  pose proof (pure_row_at p (tb_type_def (m_tables md)) (handle_of_position TTypeDef i) s) as P. rewrite E1 in P. subst s1.
  apply bind_inv_ok in E as (x & s1 & E2 & E). pose proof (pure_unwrap (S := vm) (string_at md (td_name d)) s) as P. rewrite E2 in P. subst s1.
  apply bind_inv_ok in E as (y & s1 & E3 & E). pose proof (pure_unwrap (S := vm) (string_at md (td_namespace d)) s) as P. rewrite E3 in P. subst s1.
  apply bind_inv_ok in E as (id & s1 & E4 & E). unfold next_type_id in E4. destruct (u_add _ _ _ _); [|discriminate].
  injection E4 as _ <-. unfold add_type in E. cbn in E. injection E as _ <-. cbn. eexists. split; [reflexivity|]. repeat split.
Qed.
Lemma load_types_plain p md a0 : forall n i s ts s', load_types p md a0 n i s = Ok ts s' ->
  exists l, c_types s' = c_types s ++ l /\ List.length l = n /\ Forall plain l.
Proof.
  induction n as [|n IH]; intros i s ts s' E; cbn [load_types] in E.
  - injection E as _ <-. exists []. rewrite app_nil_r. auto.
  - apply bind_inv_ok in E as (t & s1 & E1 & E). apply load_type_plain in E1 as (ti & T & Pl).
    apply bind_inv_ok in E as (l & s2 & E2 & E). injection E as _ <-. apply IH in E2 as (k & T2 & Lk & Fk).
    exists (ti :: k). split; [rewrite T2, T, <- app_assoc; reflexivity|]. split; [cbn; now rewrite Lk|now constructor].
Qed.

Lemma load_contents_complete p md a0 fuel s : let m := List.length (c_types s) in let n := List.length (tb_type_def (m_tables md)) in
  consistent p s -> loading m a0 s -> on_ok (complete p a0 m n) (load_contents fuel p md a0 s).
Proof.
  intros m n W L. unfold load_contents. fold n.
  apply ok_bind with (P := ready p m n m).
  { unfold on_ok. destruct (load_types p md a0 n 0 s) as [ts s1|e s1|w|w|] eqn:E1; auto.
    destruct (load_types_plain _ _ _ _ _ _ _ _ E1) as (l & T & Ll & F).
    split; [|intros u ti Lu; lia]. rewrite T. split; [rewrite app_length; subst m; lia|]. intros u ti X.
    destruct (Nat.lt_ge_cases u m) as [Lu|Lu]; [split; [|split]; lia|].
    rewrite nth_error_app2 in X by exact Lu. apply nth_error_In in X. rewrite Forall_forall in F. destruct (F _ X) as (A & B & C). auto. }
  intros ts s1 E1 H1. pose proof (load_types_run _ _ _ _ _ _ _ _ E1) as ->. fold m.
  destruct (pres_run_ok _ _ _ _ _ _ _ (load_types_pres p md m a0 _ _ s L) W E1) as (W1 & R1 & M1 & _ & N1). fold m in M1.
  pose proof (loading_within _ _ _ _ L R1) as L1.
  assert (RN1 : rows_named p md m s1). { apply rows_named_all. intros j Hj. apply N1. unfold len in Hj. fold n in Hj. lia. }
  apply ok_bind with (P := ready p m n (m + n)); [now apply resolve_types_ready with (a0 := a0)|].
  intros [] s2 E2 [P2 F2].
  destruct (pres_run_ok _ _ _ _ _ _ _ (resolve_types_pres p md m a0 fuel _ _ s1 L1 M1) W1 E2) as (W2 & R2 & _).
  apply ok_bind with (P := whole p m n).
  { apply load_interfaces_whole with (a0 := a0); auto; [eapply loading_within; eauto|eapply rows_named_within; eauto|].
    split; [apply P2|exact F2]. }
  intros [] s3 _ H3.
  apply ok_bind with (P := complete p a0 m n).
  { unfold modify_assembly, on_ok. split; [exact H3|]. cbn [c_arena set_arena]. intros ai X. rewrite nth_update, Nat.eqb_refl in X.
    destruct (nth_error (c_arena s3) a0) as [[x|]|]; try discriminate. injection X as <-. reflexivity. }
  intros [] s4 _ H4. apply ok_pure.
  { generalize (seq m n). induction l as [|x l IH]; cbn [map_m]; [apply pure_ret|].
    apply pure_bind; [apply pure_bind; [apply pure_the_type|intro; apply pure_ret]|intro].
    apply pure_bind; [exact IH|intro; apply pure_ret]. }
  intros defs _. apply ok_bind with (P := complete p a0 m n); [now apply complete_modify|]. intros [] s5 _ H5.
  apply ok_bind with (P := complete p a0 m n).
  { destruct (m_entry_point md) as [ep|]; [|exact H5].
    apply ok_pure; [apply pure_resolve_method|intros o _]. apply ok_pure; [apply pure_ok_or|intros x _]. now apply complete_modify. }
  intros [] s6 _ H6. exact H6.
Qed.

(** ** All assemblies *)

Definition sited (p : profile) (s : vm) : Prop := forall a ai, nth_error (c_arena s) a = Some (Some ai) ->
  exists m n, a_types ai = seq m n /\ (m + n <= List.length (c_types s))%nat /\ finished p m n (m + n) (c_types s).
Lemma exact_grows p s s' : (exists l, c_types s' = c_types s ++ l) -> sited p s -> forall a ai, nth_error (c_arena s) a = Some (Some ai) ->
  exists m n, a_types ai = seq m n /\ (m + n <= List.length (c_types s'))%nat /\ finished p m n (m + n) (c_types s').
Proof.
  intros (l & E) H a ai X. destruct (H _ _ X) as (m & n & T & Lm & F). exists m, n. split; [exact T|].
  split; [rewrite E, app_length; lia|]. eapply finished_leaves; [|exact F]. rewrite E. intros u Lu. split; [apply goes_on_prefix|].
  intros ti Y. rewrite nth_error_app1 in Y by lia. eauto.
Qed.
Lemma exact_same p s s' : (exists l, c_types s' = c_types s ++ l) -> c_arena s' = c_arena s -> sited p s -> sited p s'.
Proof. intros T A H a ai X. rewrite A in X. eapply exact_grows; eauto. Qed.

Lemma load_data_exact p fs : forall fuel data s, consistent p s -> sited p s -> after (sited p) (load_data fuel p fs data s).
Proof.
  set (P := sited p).
  induction fuel as [|fuel IH]; intros data s W H; cbn [load_data]; [exact Logic.I|]. change (P s) in H.
  apply after_pure; [apply pure_lift|exact H|intros md _].
  apply after_pure; [apply pure_row_at|exact H|intros row _].
  apply after_pure; [apply pure_unwrap|exact H|intros n _].
  set (one := fun r => _).
  assert (One : forall r x, consistent p x -> P x -> after (fun y => consistent p y /\ P y) (one r x)).
  { intros r x Wx Hx. unfold one. assert (HH : consistent p x /\ P x) by auto.
    apply after_pure; [apply pure_ok_or|exact HH|intros rn _]. unfold bind at 1. unfold get_state.
    destruct (loaded _ _ _); [exact HH|]. unfold bind at 1.
    destruct (resolve_assembly_name fs (c_paths x) rn) as [path|]; cbn [ok_or]; [|exact HH]. unfold ret at 1.
    destruct (fs _ _) as [| |d]; try exact HH.
    apply after_bind with (P := fun y => consistent p y /\ P y); auto.
    specialize (IH d x Wx Hx). pose proof (load_data_pres p fs fuel d x Wx) as Q. unfold after in *.
    destruct (load_data fuel p fs d x); auto; split; tauto. }
  apply after_bind with (P := fun y => consistent p y /\ P y); [|tauto|].
  { revert s W H. induction (tb_assembly_ref (m_tables md)) as [|r l IHl]; intros s W H; cbn [iter_m]; [split; assumption|].
    apply after_bind with (P := fun y => consistent p y /\ P y); auto. intros [] s1 _ [W1 H1]. now apply IHl. }
  intros [] s1 _ [W1 H1].
  assert (PM : forall rows, pure (load_method_refs p md rows)).
  { assert (FN : forall x y, pure (full_name_at md x y)) by (intros; unfold full_name_at; pur).
    induction rows as [|mr rows IHr]; cbn [load_method_refs]; [apply pure_ret|]. destruct (ref_table _); auto.
    apply pure_bind; [apply pure_row_at|intro]. apply pure_bind; [apply FN|intro]. apply pure_bind; [apply pure_get_type|intro].
    apply pure_bind; [apply pure_ok_or|intro]. apply pure_bind; [apply pure_ok_or|intro].
    apply pure_bind; [unfold get_method; apply pure_bind; [apply pure_the_type|intro; apply pure_ret]|intro].
    apply pure_bind; [apply pure_ok_or|intro]. apply pure_bind; [exact IHr|intro]. apply pure_ret. }
  assert (PT : pure (load_type_refs p md)).
  { assert (FN : forall x y, pure (full_name_at md x y)) by (intros; unfold full_name_at; pur).
    unfold load_type_refs. induction (tb_type_ref (m_tables md)) as [|tr l IHl]; cbn [map_m]; [apply pure_ret|].
    apply pure_bind; [apply pure_bind; [apply FN|intro]; apply pure_bind; [apply pure_get_type|intro; apply pure_ok_or]|intro].
    apply pure_bind; [exact IHl|intro; apply pure_ret]. }
  unfold bind at 1. pose proof (load_method_refs_pres p md (tb_member_ref (m_tables md)) s1 W1) as Q1. pose proof (PM (tb_member_ref (m_tables md)) s1) as Q1'.
  destruct (load_method_refs p md (tb_member_ref (m_tables md)) s1) as [ms s2|e s2|w|w|]; try exact Logic.I; [|now subst s2].
  subst s2. destruct Q1 as (_ & _ & _ & Vm).
  unfold bind at 1. pose proof (load_type_refs_pres p md s1 W1) as Q2. pose proof (PT s1) as Q2'.
  destruct (load_type_refs p md s1) as [ts s2|e s2|w|w|]; try exact Logic.I; [|now subst s2].
  subst s2. destruct Q2 as (_ & _ & _ & Vt).
  set (ai := mkAssembly _ _ _ _ _ _ _ _). unfold new_assembly, bind.
  set (a0 := List.length (c_arena s1)). set (s2 := set_arena s1 (c_arena s1 ++ [Some ai])).
  assert (W2 : consistent p s2).
  { destruct W1 as []. subst s2. split; cbn [c_types c_next_id c_type_map c_arena c_assemblies c_primitives set_arena]; auto.
    - rewrite length_snoc. eapply Forall_impl; [|exact types_ok]. intros t. apply v_type_mono; lia.
    - intros b bi Hb. destruct (Nat.lt_ge_cases b a0) as [Hlt|Hge].
      + rewrite nth_error_app1 in Hb by exact Hlt. eauto.
      + rewrite nth_error_app2 in Hb by exact Hge. destruct (b - List.length (c_arena s1))%nat as [|k]; cbn in Hb; [|destruct k; discriminate].
        injection Hb as <-. repeat split; auto; constructor.
    - eapply Forall_impl; [|exact loaded_ok]. intros b [bi Hb]. exists bi. cbn [c_arena set_arena].
      rewrite nth_error_app1; [exact Hb|]. exact (nth_lt _ _ _ Hb). }
  assert (A2 : alive s2 a0).
  { exists ai. subst s2 a0. cbn [c_arena set_arena]. now rewrite nth_error_app2, Nat.sub_diag by lia. }
  assert (L2 : loading (List.length (c_types s1)) a0 s2).
  { split; [subst s2; cbn; lia|]. subst s2 a0. cbn [c_arena set_arena]. rewrite length_snoc. lia. }
  pose proof (load_contents_complete p md a0 fuel s2 W2 L2) as R. cbn zeta in R. change (c_types s2) with (c_types s1) in R.
  pose proof (load_contents_ends p md (List.length (c_types s1)) a0 fuel s2 L2 A2 W2) as En.
  (* The other assemblies. *)
  assert (Others : forall s3, within (List.length (c_types s1)) a0 s2 s3 -> forall b bi, b <> a0 -> nth_error (c_arena s3) b = Some (Some bi) ->
    exists m n, a_types bi = seq m n /\ (m + n <= List.length (c_types s3))%nat /\ finished p m n (m + n) (c_types s3)).
  { intros s3 Wi b bi Nb X. rewrite (wi_others _ _ _ _ Wi) in X by exact Nb. apply (exact_grows p s1 s3) with b; auto.
    - apply prefix_by_nth; [apply (wi_count _ _ _ _ Wi)|apply (wi_below _ _ _ _ Wi)].
    - unfold s2 in X. cbn [c_arena set_arena] in X. destruct (Nat.lt_ge_cases b a0) as [Lb|Lb].
      + now rewrite nth_error_app1 in X.
      + exfalso. apply nth_lt in X. rewrite length_snoc in X. fold a0 in X. lia. }
  unfold drop_on_error. destruct (load_contents fuel p md a0 s2) as [u s3|e s3|w|w|]; auto; unfold after.
  - destruct En as (_ & s4 & R4 & ->). destruct R as [[Lw Fw] Ta].
    intros b bi X. cbn [c_arena c_types set_assemblies] in *. destruct (Nat.eq_dec b a0) as [->|Nb].
    + exists (List.length (c_types s1)), (List.length (tb_type_def (m_tables md))). split; [exact (Ta _ X)|]. auto.
    + exact (Others s4 R4 b bi Nb X).
  - destruct En as (_ & R3). intros b bi X. cbn [c_arena c_types set_arena] in *. rewrite nth_update in X. destruct (Nat.eqb_spec a0 b) as [<-|Nb].
    + destruct (nth_error (c_arena s3) a0); discriminate.
    + apply (Others s3 R3 b bi); auto.
Qed.

(** ** Executions leave the assemblies alone *)

Lemma array_of_arena p t s : match array_of p t s with Ok _ s' | Err _ s' => c_arena s' = c_arena s | _ => True end.
Proof.
  unfold array_of, bind. pose proof (pure_the_type t s) as Q. destruct (the_type t s) as [e s1|e s1|w|w|]; subst; auto.
  unfold get_type. destruct (map_get _ _ _); [reflexivity|]. unfold next_type_id. destruct (u_add _ _ _ _); reflexivity || exact Logic.I.
Qed.
Lemma vm_arena p s0 : invariant p (fun s => c_arena (x_vm s) = c_arena s0) (fun _ _ _ _ => True).
Proof.
  assert (KS : forall A (f : M machine A), silent f -> keeps (fun s => c_arena (x_vm s) = c_arena s0) f (fun _ _ => True)).
  { intros A f H s Hs. specialize (H s). destruct (f s); auto; [split; [|exact Logic.I]|]; now rewrite H. }
  split.
  - intros s l H. exact H.
  - intros. apply KS, silent_store.
  - intros. apply KS, silent_make_room.
  - intros t s Hs. unfold on_vm. pose proof (array_of_arena p t (x_vm s)) as Q.
    destruct (array_of p t (x_vm s)) as [u v|e v|w|w|]; auto; cbn; [split; [|exact Logic.I]|]; congruence.
  - intros f r. cbn zeta. apply KS. apply silent_bind; [apply silent_stackalloc|intro c].
    apply silent_bind; [apply silent_pop_args|intros []]. apply silent_pure, pure_ret.
Qed.
Lemma step_arena f p fr s : match step f p fr s with Ok _ s' | Err _ s' => c_arena (x_vm s') = c_arena (x_vm s) | _ => True end.
Proof.
  assert (KS : forall A (g : M machine A), silent g -> keeps (fun s' => c_arena (x_vm s') = c_arena (x_vm s)) g (fun _ _ => True)).
  { intros A g H s1 Hs. specialize (H s1). destruct (g s1); auto; [split; [|exact Logic.I]|]; now rewrite H. }
  assert (WR : writable fr (fun s' => c_arena (x_vm s') = c_arena (x_vm s))) by (intros c i v _; apply KS, silent_cell_set).
  pose proof (keeps_step p fr _ _ (vm_arena p (x_vm s)) f fr WR (same_frame_refl fr) s eq_refl) as H.
  destruct (step f p fr s); auto. apply H.
Qed.
Lemma runs_arena p :
  (forall fr s t e, runs p fr s t e -> c_arena (x_vm (final e)) = c_arena (x_vm s)) /\
  (forall f c s t e, calls p f c s t e -> c_arena (x_vm (final e)) = c_arena (x_vm s)).
Proof.
  apply (traces_ind p (fun fr s t e _ => c_arena (x_vm (final e)) = c_arena (x_vm s))
                      (fun f c s t e _ => c_arena (x_vm (final e)) = c_arena (x_vm s))); cbn [final].
  - intros f fr s e s' E. pose proof (step_arena f p fr s) as Q. now rewrite E in Q.
  - intros f fr s v s' E. pose proof (step_arena f p fr s) as Q. now rewrite E in Q.
  - intros f fr s fr' s' t e E _ IH. pose proof (step_arena f p fr s) as Q. rewrite E in Q. congruence.
  - intros f fr s g c r fr' s1 t1 v s2 t2 e E _ IH1 _ IH2. pose proof (step_arena f p fr s) as Q. rewrite E in Q. etransitivity; [exact IH2|]. etransitivity; [exact IH1|exact Q].
  - intros f fr s g c r fr' s1 t1 e s2 E _ IH1. pose proof (step_arena f p fr s) as Q. rewrite E in Q. etransitivity; [exact IH1|exact Q].
  - intros g b c s fr s1 t v s2 s3 _ En _ IH L. now rewrite (leaves_vm _ _ _ L), <- (enters_vm _ _ _ _ _ _ En).
  - intros g b c s fr s1 t v s2 s3 _ En _ IH L. now rewrite (leaves_vm _ _ _ L), <- (enters_vm _ _ _ _ _ _ En).
  - intros g c s o text r s' _ Hv _ E. pose proof (console_write_run c s) as H. rewrite E in H.
    destruct H as (_ & o' & units & text' & _ & _ & _ & _ & ->). reflexivity.
Qed.
Lemma execute_arena p fuel f params s r s' : execute fuel p f params s = Ok r s' -> c_arena s' = c_arena s.
Proof.
  intro E. apply execute_executes in E. destruct E as [(_ & -> & _)|(_ & t & e & H & _ & ->)]; [reflexivity|].
  exact (proj2 (runs_arena p) _ _ _ _ _ H).
Qed.

(** ** Histories *)

Lemma load_path_exact p fs fuel path s : consistent p s -> sited p s -> after (sited p) (load_path fuel p fs path s).
Proof. intros W H. unfold load_path. destruct (fs _ _); try exact H. now apply load_data_exact. Qed.
Lemma load_assembly_exact p fs fuel n s : consistent p s -> sited p s -> after (sited p) (load_assembly fuel p fs n s).
Proof.
  intros W H. unfold load_assembly, bind, get_state. destruct (resolve_assembly_name _ _ _); cbn [ok_or]; [|exact H].
  unfold ret. now apply load_path_exact.
Qed.
Lemma event_exact p fs s s' : consistent p s -> event p fs s s' -> sited p s -> sited p s'.
Proof.
  intros W E H. pose proof (proj2 (event_ok _ _ _ _ W E)) as G.
  destruct E as [fuel data a s s' E|fuel data a s s' E|fuel d f a s s' E|fuel d f a s s' E|fuel n a s s' E|fuel n a s s' E|t u s s' E|fuel f params r s s' E].
  - exact (after_ok _ _ _ _ (load_data_exact _ _ _ _ _ W H) E).
  - exact (after_err _ _ _ _ (load_data_exact _ _ _ _ _ W H) E).
  - exact (after_ok _ _ _ _ (load_path_exact _ _ _ _ _ W H) E).
  - exact (after_err _ _ _ _ (load_path_exact _ _ _ _ _ W H) E).
  - exact (after_ok _ _ _ _ (load_assembly_exact _ _ _ _ _ W H) E).
  - exact (after_err _ _ _ _ (load_assembly_exact _ _ _ _ _ W H) E).
  - pose proof (array_of_arena p t s) as Q. rewrite E in Q. apply (exact_same p s); auto. apply (gr_types _ _ G).
  - apply execute_arena in E. apply (exact_same p s); auto. apply (gr_types _ _ G).
Qed.
Lemma later_exact p fs s s' : later p fs s s' -> consistent p s -> sited p s -> sited p s'.
Proof.
  induction 1 as [|s s1 s2 L IH E]; intros W H; [exact H|]. destruct (later_ok _ _ _ _ L W) as [W1 _].
  eapply event_exact; eauto.
Qed.
Lemma new_runtime_exact p fs fuel paths rt con s : new_runtime fuel p fs paths rt con = Ok tt s -> sited p s.
Proof.
  unfold new_runtime. intro H. pose proof (empty_consistent p paths) as W0.
  assert (H0 : sited p (empty_vm paths)). { intros t ti E. destruct t; discriminate. }
  apply bind_inv_ok in H as (a1 & s1 & H1 & H).
  pose proof (after_ok _ _ _ _ (load_data_exact _ _ _ _ _ W0 H0) H1) as L1.
  destruct (pres_run_ok _ _ _ _ _ _ _ (load_data_pres p fs fuel rt _) W0 H1) as (W1 & _).
  apply bind_inv_ok in H as (a2 & s2 & H2 & H).
  pose proof (after_ok _ _ _ _ (load_data_exact _ _ _ _ _ W1 L1) H2) as L2.
  do 11 (let t := fresh "t" in let s' := fresh "s'" in let Ht := fresh "Ht" in
    apply bind_inv_ok in H as (t & s' & Ht & H);
    lazymatch type of Ht with named ?x ?s0 = _ => pose proof (pure_named x s0) as Q; rewrite Ht in Q; subst s'; clear Ht end).
  cbn in H. injection H as <-. exact L2.
Qed.
Lemma history_sited p fs paths s : history p fs paths s -> sited p s.
Proof.
  intros (fuel & rt & con & s0 & H & L). destruct (new_runtime_ok _ _ _ _ _ _ _ H) as (W & _).
  eapply later_exact; eauto. eapply new_runtime_exact; eauto.
Qed.

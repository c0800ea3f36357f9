(** Loads that succeed: types, their members, and the whole image. *)
From Coq Require Import NArith String List Bool Lia Arith.
From Coq.Strings Require Import Byte.
From Verif Require Import Base BaseFacts BinaryReader ParseSpec ReaderFacts Attributes Tables TablesProofs Blob BlobProofs Metadata
  Runtime Loader SpecBytes SpecBlob SpecPe Pe SpecMetadata SpecRuntime
  RuntimeInv SpecHistory HistoryProofs InterpInv SpecBody BodyProofs TypeFacts LayoutFacts SpecTypes SpecLoader LoaderFacts LoaderRun MemberFacts
  PropsBlob SpecLoad LoadFacts LoadRun.
Import ListNotations.
Open Scope N_scope.

Lemma update_count {A} (f : A -> A) : forall l i, List.length (update l i f) = List.length l.
Proof. induction l as [|x l IH]; intros [|i]; cbn; auto. Qed.
Lemma heap_text_det md h x y : heap_text md h x -> heap_text md h y -> x = y.
Proof. intros A B. apply string_at_text in A. apply string_at_text in B. congruence. Qed.
Lemma combine_maps {A B C D} (f : A -> C) (g : B -> D) : forall l l',
  combine (map f l) (map g l') = map (fun x : A * B => (f (fst x), g (snd x))) (combine l l').
Proof. induction l as [|x l IH]; intros [|y l']; cbn; auto. now rewrite IH. Qed.
Lemma map_snd_combine {A B} : forall (l : list A) (l' : list B), List.length l = List.length l' -> map snd (combine l l') = l'.
Proof. induction l as [|x l IH]; intros [|y l'] H; cbn in *; try discriminate; auto. f_equal. apply IH. lia. Qed.
Lemma nth_combine {A B} : forall (l : list A) (l' : list B) q a b, nth_error (combine l l') q = Some (a, b) ->
  nth_error l q = Some a /\ nth_error l' q = Some b.
Proof.
  induction l as [|x l IH]; intros [|y l'] [|q] a b H; cbn in *; try discriminate; [now injection H as -> ->|now apply IH].
Qed.
Lemma nth_firstn {A} : forall k (l : list A) q x, nth_error (firstn k l) q = Some x -> nth_error l q = Some x.
Proof. induction k as [|k IH]; intros [|y l] [|q] x H; cbn in *; try discriminate; auto. Qed.
Lemma nth_skipn {A} : forall k (l : list A) q, nth_error (skipn k l) q = nth_error l (k + q).
Proof. induction k as [|k IH]; intros [|y l] q; cbn; auto. now destruct q. Qed.
Lemma skipn_twice {A} a : forall b (l : list A), skipn a (skipn b l) = skipn (b + a) l.
Proof. induction b as [|b IH]; intros [|x l]; cbn; auto. now destruct a. Qed.
Lemma Forall2_count {A B} (R : A -> B -> Prop) l l' : Forall2 R l l' -> List.length l = List.length l'.
Proof. induction 1; cbn; auto. Qed.
Lemma Forall2_nth_error {A B} (R : A -> B -> Prop) : forall l l' q a b, Forall2 R l l' -> nth_error l q = Some a -> nth_error l' q = Some b -> R a b.
Proof.
  intros l l' q a b F. revert q. induction F; intros [|q] H1 H2; cbn in *; try discriminate; [congruence|eauto].
Qed.

(** What a type weighs. *)
Definition heft (pl : plan) (nm : tref -> name) (ti : type_info) : N :=
  base_weight pl (option_map nm (ti_base ti)) +
  sum (map (fun f => if f_static f then 0 else slot pl (nm (f_type f))) (ti_fields ti)).
Lemma heft_ext pl (nm nm' : tref -> name) ti n : refers n ti -> (forall t, (t < n)%nat -> nm' t = nm t) -> heft pl nm' ti = heft pl nm ti.
Proof.
  intros (R1 & R2 & R3) H. unfold heft. f_equal.
  - destruct (ti_base ti) as [b|]; cbn; [|reflexivity]. now rewrite H by auto.
  - f_equal. apply map_ext_in. intros f Hf. cbn beta. now rewrite H by auto.
Qed.

Section Types.
  Variables (p : profile) (top : nat) (pl : plan) (s0 : vm) (md : metadata) (fts : list (sig_type * name)) (ks : list N).
  Hypothesis PO : plan_ok top pl.
  Hypothesis LD : loadable p s0 md pl fts ks.
  Variables (fuel : nat) (n0 : nat) (a0 : aref).
  Hypothesis Hfuel : (top + top + 2 <= fuel)%nat.
  Let Hmd : addressable md := ld_addressable _ _ _ _ _ _ LD.
  Let Hl : well_listed md := ld_listed _ _ _ _ _ _ LD.
  Let tds := tb_type_def (m_tables md).
  Notation mid := (mid p pl s0 md).

  Lemma mid_refers r s t ti : mid r s -> nth_error (c_types s) t = Some ti -> refers (List.length (c_types s)) ti.
  Proof.
    intros M E. pose proof (types_ok _ _ (md_consistent _ _ _ _ _ _ M)) as T. rewrite Forall_forall in T.
    exact (v_refers _ _ _ (T ti (nth_error_In _ _ E))).
  Qed.
  Lemma mid_fits r s t ti : mid r s -> nth_error (c_types s) t = Some ti -> fits pl (name_of (c_types s)) ti.
  Proof. intros M E. apply (proj1 (planned_fits _ _) (md_planned _ _ _ _ _ _ M)). exact (nth_error_In _ _ E). Qed.
  Lemma mid_update r s t f ti : mid r s -> (forall x, ti_full_name (f x) = ti_full_name x) ->
    nth_error (c_types s) t = Some ti -> fits pl (name_of (c_types s)) (f ti) ->
    consistent p (set_types s (update (c_types s) t f)) -> mid r (set_types s (update (c_types s) t f)).
  Proof.
    intros [W P K R] Hf E F W'. split; cbn [c_types set_types]; auto.
    - eapply planned_update; eauto.
    - intros n A. destruct (K n A) as (x & Hx & Nx). apply In_nth_error in Hx as [u Hu].
      pose proof (update_names t f (c_types s) Hf u) as Q. rewrite Hu in Q.
      destruct (nth_error (update (c_types s) t f) u) as [y|] eqn:Ey; [|discriminate]. exists y.
      cbn [c_types set_types]. split; [eapply nth_error_In; eauto|]. cbn in Q. injection Q as Q. congruence.
    - intro X. specialize (R X). cbn [c_types set_types]. unfold len in *. rewrite update_count. exact R.
  Qed.
  Lemma mid_types r s s' : mid r s -> consistent p s' -> c_types s' = c_types s -> mid r s'.
  Proof.
    intros [W P K R] W' T. split; auto.
    - now rewrite T.
    - intros n A. unfold known. rewrite T. now apply K.
    - intro X. rewrite T. now apply R.
  Qed.
  Lemma core_known r s : mid r s -> forall x, In x ("System.ValueType"%string :: map fst widths) -> known s (bytes_of_string x).
  Proof. intros M x H. apply (md_known _ _ _ _ _ _ M), (ld_core _ _ _ _ _ _ LD), H. Qed.
  Lemma size_of_type r s t ti : mid r s -> nth_error (c_types s) t = Some ti ->
    exists k, type_size fuel p t s = Ok k s /\ k <= pl_weight pl (ti_full_name ti).
  Proof.
    intros M E. exact (type_size_fwd p top pl s PO (md_consistent _ _ _ _ _ _ M) (md_planned _ _ _ _ _ _ M) (core_known r s M) t ti fuel E Hfuel).
  Qed.
  Lemma fits_same nm ti ti' : ti_base ti' = ti_base ti -> ti_interfaces ti' = ti_interfaces ti -> ti_fields ti' = ti_fields ti ->
    ti_full_name ti' = ti_full_name ti -> ti_name ti' = ti_name ti -> fits pl nm ti -> fits pl nm ti'.
  Proof. intros E1 E2 E3 E4 E5 [A B C D E]. split; rewrite ?E1, ?E2, ?E3, ?E4, ?E5; auto. Qed.

  (** ** Bases and kinds *)

  Lemma resolve_base_fwd t j row ti o r s : mid r s -> loading n0 a0 s -> mine n0 a0 s t -> nth_error tds j = Some row ->
    nth_error (c_types s) t = Some ti -> ti_base ti = None -> ti_fields ti = [] -> ti_interfaces ti = [] -> extends md row o ->
    (forall b, o = Some b -> available s0 md b /\ (pl_rank pl b < pl_rank pl (ti_full_name ti))%nat /\
       (pl_value pl b = true -> pl_value pl (ti_full_name ti) = true)) ->
    (~ primitive (ti_full_name ti) -> base_weight pl o <= pl_weight pl (ti_full_name ti)) ->
    exists s' ti', resolve_base p md t (N.of_nat j) s = Ok tt s' /\ mid r s' /\ nth_error (c_types s') t = Some ti' /\
      ti_full_name ti' = ti_full_name ti /\ ti_fields ti' = [] /\ option_map (name_of (c_types s')) (ti_base ti') = o.
  Proof.
    intros M L Mt Er Et Eb Ef Ei Hx Hb Hw.
    assert (ROW : row_at p (tb_type_def (m_tables md)) (handle_of_position TTypeDef (N.of_nat j)) s = Ok row s).
    { apply row_at_run; cbn [handle_of_position]; [lia|]. replace (N.to_nat _) with j by lia. exact Er. }
    assert (X : exists s' ti', resolve_base p md t (N.of_nat j) s = Ok tt s' /\ (consistent p s' -> mid r s') /\
      nth_error (c_types s') t = Some ti' /\ ti_full_name ti' = ti_full_name ti /\ ti_fields ti' = [] /\
      option_map (name_of (c_types s')) (ti_base ti') = o).
    { unfold resolve_base. rewrite (bind_ok _ _ _ _ _ ROW). destruct o as [b|].
      - destruct Hx as (tab & k & Ex & Hn). destruct (Hb b eq_refl) as (A & B1 & B2).
        destruct (known_latest p s b (md_consistent _ _ _ _ _ _ M) (md_known _ _ _ _ _ _ M b A)) as (u & Lu & Gu).
        assert (E : (o <- type_def_or_ref_name p md (td_extends row) ;;
          b <- match o with Some n => get_type n | None => ret None end ;;
          b <- ok_or b "Unable to find base type" ;; modify_type t (with_base (Some b))) s =
          Ok tt (set_types s (update (c_types s) t (with_base (Some u))))).
        { rewrite Ex. rewrite (bind_ok _ _ _ _ _ (row_name_run p md tab k b s Hn)), (bind_ok _ _ _ _ _ Gu). reflexivity. }
        assert (Nu : name_of (c_types s) u = b) by (apply name_of_named, Lu).
        exists (set_types s (update (c_types s) t (with_base (Some u)))), (with_base (Some u) ti).
        split; [|split; [|split; [now apply modified|split; [reflexivity|split; [exact Ef|]]]]].
        + rewrite Ex in E |- *. destruct Hn; cbn [named_ref ref_table ref_index] in *; [|exact E].
          destruct row0 as [|q]; [lia|exact E].
        + intro W'. apply (mid_update r s t _ ti); auto.
          split; cbn [ti_base with_base ti_interfaces ti_fields ti_full_name ti_name].
          * intros v V. injection V as <-. rewrite Nu. auto.
          * rewrite Ei. intros i [].
          * rewrite Ef. intros f [].
          * intro NP. rewrite Ef. cbn [option_map base_weight map sum fold_right]. rewrite Nu, N.add_0_r. exact (Hw NP).
          * exact (ft_short _ _ _ (mid_fits _ _ _ _ M Et)).
        + cbn [c_types set_types ti_base with_base option_map]. rewrite name_of_update by reflexivity. now rewrite Nu.
      - cbn [extends] in Hx. rewrite Hx. cbn [named_ref ref_table ref_index]. exists s, ti. rewrite Eb. auto 8. }
    destruct X as (s' & ti' & E & H & H'). exists s', ti'. split; [exact E|]. split; [|exact H']. apply H.
    exact (proj1 (pres_run_ok _ _ _ _ _ _ _ (resolve_base_pres p md n0 a0 t _ s L Mt) (md_consistent _ _ _ _ _ _ M) E)).
  Qed.

  Lemma resolve_kind_fwd t j row ti r s : mid r s -> loading n0 a0 s -> mine n0 a0 s t -> nth_error tds j = Some row ->
    nth_error (c_types s) t = Some ti -> exists s' ti', resolve_kind p md t (N.of_nat j) s = Ok tt s' /\ mid r s' /\
      nth_error (c_types s') t = Some ti' /\ ti_full_name ti' = ti_full_name ti /\ ti_fields ti' = ti_fields ti /\
      option_map (name_of (c_types s')) (ti_base ti') = option_map (name_of (c_types s)) (ti_base ti).
  Proof.
    intros M L Mt Er Et.
    assert (ROW : row_at p (tb_type_def (m_tables md)) (handle_of_position TTypeDef (N.of_nat j)) s = Ok row s).
    { apply row_at_run; cbn [handle_of_position]; [lia|]. replace (N.to_nat _) with j by lia. exact Er. }
    assert (TY : the_type t s = Ok ti s) by (unfold the_type; now rewrite Et).
    assert (X : exists k, resolve_kind p md t (N.of_nat j) s = Ok tt (set_types s (update (c_types s) t (with_kind (Some k))))).
    { unfold resolve_kind. rewrite (bind_ok _ _ _ _ _ ROW), (bind_ok _ _ _ _ _ TY).
      destruct (ta_semantics (td_attributes row)); [|eexists; reflexivity].
      destruct (ti_base ti) as [b|] eqn:Eb; [|eexists; reflexivity].
      destruct (nth_error (c_types s) b) as [bi|] eqn:Ebi.
      - assert (TB : the_type b s = Ok bi s) by (unfold the_type; now rewrite Ebi). unfold bind at 1. rewrite (bind_ok _ _ _ _ _ TB).
        eexists. reflexivity.
      - exfalso. apply nth_error_None in Ebi. pose proof (proj1 (mid_refers _ _ _ _ M Et) b Eb). lia. }
    destruct X as (k & E). exists (set_types s (update (c_types s) t (with_kind (Some k)))), (with_kind (Some k) ti). split; [exact E|].
    split; [|split; [now apply modified|split; [reflexivity|split; [reflexivity|]]]];
      [|cbn [c_types set_types ti_base with_kind]; destruct (ti_base ti); cbn [option_map]; [now rewrite name_of_update by reflexivity|reflexivity]].
    apply (mid_update r s t _ ti); auto.
    - eapply fits_same; [..|exact (mid_fits _ _ _ _ M Et)]; reflexivity.
    - exact (proj1 (pres_run_ok _ _ _ _ _ _ _ (resolve_kind_pres p md n0 a0 t _ s L Mt) (md_consistent _ _ _ _ _ _ M) E)).
  Qed.

  (** ** Fields *)

  Definition kept (e : field_row * (sig_type * name)) : bool * name := (fa_is_static (fd_attributes (fst e)), snd (snd e)).
  Definition weight_in (f : bool * name) : N := if fst f then 0 else slot pl (snd f).
  Definition field_vectors (l : list (sig_type * name)) : N := sum (map (fun f : sig_type * name => vectors (fst f)) l).

  Lemma load_fields_fwd t : forall rl i off r s ti, loading n0 a0 s -> mine n0 a0 s t ->
    nth_error (c_types s) t = Some ti ->
    (forall q row e, nth_error rl q = Some (row, e) -> row_of (tb_field (m_tables md)) (i + N.of_nat q) row /\ field_loads s0 md row e) ->
    (forall m, In (false, m) (map kept rl) -> pl_value pl m = true -> primitive m \/ (pl_rank pl m < pl_rank pl (ti_full_name ti))%nat) ->
    (~ primitive (ti_full_name ti) -> heft pl (name_of (c_types s)) ti + sum (map weight_in (map kept rl)) <= pl_weight pl (ti_full_name ti)) ->
    off + sum (map (fun f : bool * name => pl_weight pl (snd f)) (map kept rl)) < 2 ^ 64 ->
    mid (field_vectors (map snd rl) + r) s ->
    exists s', load_fields fuel p md t (List.length rl) i off s = Ok tt s' /\ mid r s'.
  Proof.
    induction rl as [|[row [ty n]] rl IH]; intros i off r s ti L Mt Et HR HF HW HO M; cbn [List.length load_fields].
    - exists s. split; [reflexivity|exact M].
    - destruct (HR 0%nat row (ty, n) eq_refl) as [Hr Hf]. rewrite N.add_0_r in Hr.
      unfold field_vectors in M. cbn [map snd fst] in M. rewrite sum_cons, <- N.add_assoc in M. fold (field_vectors (map snd rl)) in M.
      destruct (load_field_fwd p top pl s0 md PO Hmd t row ty n i off _ s Hr Hf M) as (fi & s1 & E1 & M1 & G1 & St & Nf).
      pose proof (md_consistent _ _ _ _ _ _ M) as W.
      destruct (pres_run_ok _ _ _ _ _ _ _ (load_field_pres p md t i off s (mine_ref _ _ _ _ Mt)) W E1) as (W1 & A1 & V1).
      pose proof (appends_within n0 a0 _ _ (proj1 L) A1) as R1.
      pose proof (loading_within _ _ _ _ L R1) as L1. pose proof (mine_within _ _ _ _ _ Mt R1) as M1t.
      assert (Et1 : nth_error (c_types s1) t = Some ti).
      { rewrite (appends_nth _ _ _ A1); [exact Et|exact (nth_lt _ _ _ Et)]. }
      assert (H1 : heft pl (name_of (c_types s1)) ti = heft pl (name_of (c_types s)) ti).
      { apply heft_ext with (n := List.length (c_types s)); [exact (mid_refers _ _ _ _ M Et)|].
        intros u Hu. destruct (ap_types _ _ A1) as [l ->]. now apply name_of_app. }
      set (s2 := set_types s1 (update (c_types s1) t (with_field fi))).
      assert (E2 : modify_type t (with_field fi) s1 = Ok tt s2) by reflexivity.
      assert (P2 : pres p (within n0 a0) s1 (modify_type t (with_field fi)) (fun _ _ => True)).
      { apply modify_type_pres; [apply Mt|intro; repeat split|].
        intros x (A & B & D & G & H & J & K). repeat split; auto.
        - apply Forall_app. split; [exact D|]. constructor; [exact V1|constructor].
        - constructor; [exact V1|exact J]. }
      destruct (pres_run_ok _ _ _ _ _ _ _ P2 W1 E2) as (W2 & R2 & _).
      pose proof (name_of_named _ _ _ Nf) as Nn. cbn [map] in HF, HW, HO. unfold kept at 1 in HF. unfold kept at 1 in HW. unfold kept at 1 in HO. cbn [fst snd] in HF, HW, HO. rewrite sum_cons in HW, HO. cbn [fst snd] in HO.
      rewrite <- St in HF, HW.
      assert (Hh : heft pl (name_of (c_types s1)) (with_field fi ti) = heft pl (name_of (c_types s1)) ti + weight_in (f_static fi, n)).
      { unfold heft, weight_in. cbn [ti_base ti_fields with_field fst snd]. rewrite map_app, sum_app. cbn [map]. rewrite sum_cons, Nn.
        change (sum []) with 0. lia. }
      assert (M2 : mid (field_vectors (map snd rl) + r) s2).
      { apply (mid_update _ s1 t _ ti); auto. pose proof (mid_fits _ _ _ _ M1 Et1) as [F1 F2 F3 F4 F5].
        split; cbn [ti_base ti_interfaces ti_full_name ti_name with_field]; auto.
        - cbn [ti_fields with_field]. intros f Hin Hs Hv. apply in_app_or in Hin as [Hin|[<-|[]]]; [auto|].
          rewrite Nn in *. apply HF; [left; now rewrite Hs|exact Hv].
        - intro NP. specialize (HW NP). unfold heft at 1 in Hh. cbn [ti_base with_field] in Hh. rewrite Hh, H1. lia. }
      pose proof (loading_within _ _ _ _ L1 R2) as L2. pose proof (mine_within _ _ _ _ _ M1t R2) as M2t.
      assert (Et2 : nth_error (c_types s2) t = Some (with_field fi ti)) by now apply modified.
      assert (Ea : ti_assembly (with_field fi ti) = a0) by (destruct M2t as [_ (x & Ex & Ax)]; congruence).
      rewrite (bind_ok _ _ _ _ _ E1), (bind_ok _ _ _ _ _ E2).
      assert (TY : the_type t s2 = Ok (with_field fi ti) s2) by (unfold the_type; now rewrite Et2).
      rewrite (bind_ok _ _ _ _ _ TY), Ea.
      match goal with |- exists s', bind (modify_assembly _ ?g) _ _ = _ /\ _ => set (h := g) end.
      assert (P3 : pres p (within n0 a0) s2 (modify_assembly a0 h) (fun _ _ => True)).
      { apply modify_assembly_pres. intros ai (A & B & D & G & H & J). repeat split; auto. apply Forall_app. split; [exact H|].
        constructor; [|constructor]. eapply v_field_mono; [|exact V1]. apply (wi_count _ _ _ _ R2). }
      set (s3 := set_arena s2 (update (c_arena s2) a0 (option_map h))).
      assert (E3 : modify_assembly a0 h s2 = Ok tt s3) by reflexivity.
      destruct (pres_run_ok _ _ _ _ _ _ _ P3 W2 E3) as (W3 & R3 & _). rewrite (bind_ok _ _ _ _ _ E3).
      assert (M3 : mid (field_vectors (map snd rl) + r) s3) by (eapply mid_types; eauto).
      assert (Nf3 : is_named (c_types s3) (f_type fi) n).
      { change (c_types s3) with (c_types s2). exact (named_le_within _ _ _ _ R2 _ _ Nf). }
      destruct Nf3 as (fti & Ef & Nfi). destruct (size_of_type _ _ _ _ M3 Ef) as (k & Ek & Lk). rewrite Nfi in Lk.
      rewrite (bind_ok _ _ _ _ _ Ek). rewrite u_add_small by lia. cbn [ovf]. rewrite (bind_ok (ret (off + k)) _ s3 (off + k) s3 eq_refl).
      assert (Et3 : nth_error (c_types s3) t = Some (with_field fi ti)) by exact Et2.
      pose proof (loading_within _ _ _ _ L2 R3) as L3. pose proof (mine_within _ _ _ _ _ M2t R3) as M3t.
      apply (IH (i + 1) (off + k) r s3 (with_field fi ti) L3 M3t Et3); [| | | |exact M3].
      + intros q row' e He. destruct (HR (S q) row' e He) as [Q1 Q2]. split; [|exact Q2].
        replace (i + 1 + N.of_nat q) with (i + N.of_nat (S q)) by lia. exact Q1.
      + cbn [ti_full_name with_field]. intros m Hm. apply HF. now right.
      + cbn [ti_full_name with_field]. intro NP. specialize (HW NP).
        assert (H3 : heft pl (name_of (c_types s3)) (with_field fi ti) = heft pl (name_of (c_types s1)) (with_field fi ti)).
        { assert (Q : forall u, name_of (c_types s3) u = name_of (c_types s1) u) by (intro; now apply name_of_update).
          unfold heft. f_equal; [|f_equal; apply map_ext; intro; now rewrite Q].
          destruct (ti_base (with_field fi ti)); cbn; [now rewrite Q|reflexivity]. }
        rewrite H3, Hh, H1. lia.
      + lia.
  Qed.

  (** ** Rows of a type *)

  Lemma rows_bound {A} (starts : list N) (rows : list A) total j : len rows = total -> (j < List.length starts)%nat ->
    rows_of starts j rows =
    firstn (N.to_nat (bound starts total (S j) - bound starts total j)) (skipn (N.to_nat (bound starts total j - 1)) rows).
  Proof.
    intros Hr Hj. unfold rows_of, bound. rewrite Hr.
    assert (X : forall i, (i <= List.length starts)%nat -> nth i starts (total + 1) = nth i (starts ++ [total + 1]) 0).
    { intros i Hi. destruct (Nat.eq_dec i (List.length starts)) as [->|Ne].
      - rewrite nth_overflow by lia. now rewrite app_nth2, Nat.sub_diag by lia.
      - rewrite app_nth1 by lia. apply nth_indep. lia. }
    now rewrite !X by lia.
  Qed.
  Lemma rows_split {A} (rows : list A) x y : 1 <= x <= y ->
    skipn (N.to_nat (x - 1)) rows = firstn (N.to_nat (y - x)) (skipn (N.to_nat (x - 1)) rows) ++ skipn (N.to_nat (y - 1)) rows.
  Proof.
    intro H. rewrite <- (firstn_skipn (N.to_nat (y - x)) (skipn (N.to_nat (x - 1)) rows)) at 1. f_equal. rewrite skipn_twice.
    f_equal. lia.
  Qed.
  Lemma rows_count {A} (rows : list A) x y : 1 <= x <= y -> y <= len rows + 1 ->
    List.length (firstn (N.to_nat (y - x)) (skipn (N.to_nat (x - 1)) rows)) = N.to_nat (y - x).
  Proof. intros H1 H2. rewrite firstn_length, skipn_length. unfold len in H2. lia. Qed.
  Lemma rows_nth {A} (rows : list A) x y q r : 1 <= x <= y ->
    nth_error (firstn (N.to_nat (y - x)) (skipn (N.to_nat (x - 1)) rows)) q = Some r -> row_of rows (x + N.of_nat q) r.
  Proof.
    intros H E. apply nth_firstn in E. rewrite nth_skipn in E. split; [lia|]. replace (N.to_nat _) with (N.to_nat (x - 1) + q)%nat by lia. exact E.
  Qed.
  Lemma rows_nth_in {A} (rows : list A) x y q r : 
    nth_error (firstn (N.to_nat (y - x)) (skipn (N.to_nat (x - 1)) rows)) q = Some r -> nth_error rows (N.to_nat (x - 1) + q) = Some r.
  Proof. intro E. apply nth_firstn in E. now rewrite nth_skipn in E. Qed.

  Let fb := bound (map td_field_list tds) (len (tb_field (m_tables md))).
  Let mb := bound (map td_method_list tds) (len (tb_method_def (m_tables md))).
  Let nf : List.length (map td_field_list tds) = List.length tds := map_length _ _.
  Let nm : List.length (map td_method_list tds) = List.length tds := map_length _ _.

  Lemma run_length_fwd col total j s : consecutive (map col tds) total -> (j < List.length tds)%nat ->
    run_length p md (N.of_nat j) col total s = Ok (bound (map col tds) total (S j) - bound (map col tds) total j) s.
  Proof.
    intros C Hj. set (b := bound (map col tds) total).
    assert (Hn : List.length (map col tds) = List.length tds) by apply map_length.
    pose proof (bound_row (map col tds) total) as Br. fold b in Br.
    assert (ROW : forall i d, nth_error tds i = Some d -> row_at p tds (handle_of_position TTypeDef (N.of_nat i)) s = Ok d s).
    { intros i d E. apply row_at_run; cbn [handle_of_position]; [lia|]. replace (N.to_nat _) with i by lia. exact E. }
    destruct (nth_some tds j Hj) as [d Ed]. unfold run_length. fold tds. rewrite (bind_ok _ _ _ _ _ (ROW j d Ed)).
    assert (Bj : col d = b j).
    { specialize (Br j ltac:(lia)). rewrite nth_error_map, Ed in Br. cbn in Br. congruence. }
    destruct (N.of_nat j =? len tds - 1) eqn:K.
    - apply N.eqb_eq in K. unfold len in K. assert (Hs : S j = List.length (map col tds)) by lia.
      pose proof (bound_last (map col tds) total) as Bl. fold b in Bl. rewrite <- Hs in Bl.
      destruct (bound_le _ _ C j ltac:(lia)) as [B1 B2]. fold b in B1, B2.
      rewrite Bj, u_sub_small by lia. cbn [ovf]. rewrite (bind_ok (ret (b j - 1)) _ s _ s eq_refl). rewrite u_sub_small by lia.
      cbn [ovf]. unfold ret. f_equal. lia.
    - apply N.eqb_neq in K. unfold len in K. assert (Hs : (S j < List.length tds)%nat) by lia.
      destruct (nth_some tds (S j) Hs) as [d' Ed']. replace (N.of_nat j + 1) with (N.of_nat (S j)) by lia.
      rewrite (bind_ok _ _ _ _ _ (ROW _ _ Ed')).
      assert (Bk : col d' = b (S j)).
      { specialize (Br (S j) ltac:(lia)). rewrite nth_error_map, Ed' in Br. cbn in Br. congruence. }
      pose proof (bound_step _ _ C j ltac:(lia)) as Bs. fold b in Bs. rewrite Bj, Bk, u_sub_small by exact Bs. reflexivity.
  Qed.
  Lemma reserve_fwd c s : c < 2 ^ 24 -> reserve c s = Ok tt s.
  Proof. intro H. unfold reserve. destruct (_ <? _) eqn:E; [|reflexivity]. apply N.ltb_lt in E. change (2 ^ 63 - 1) with 9223372036854775807 in E. change (2 ^ 24) with 16777216 in H. lia. Qed.

  (** ** Fields and methods of a type *)

  Lemma fts_count : len fts = len (tb_field (m_tables md)).
  Proof. unfold len. f_equal. symmetry. exact (Forall2_count _ _ _ (ld_fields _ _ _ _ _ _ LD)). Qed.
  Lemma ks_count : len ks = len (tb_method_def (m_tables md)).
  Proof. unfold len. now rewrite (ld_counts _ _ _ _ _ _ LD). Qed.

  Lemma resolve_fields_fwd t j row ti o r s : mid (field_vectors (rows_of (map td_field_list tds) j fts) + r) s ->
    loading n0 a0 s -> mine n0 a0 s t -> (exists ai, nth_error (c_arena s) a0 = Some (Some ai)) ->
    nth_error tds j = Some row -> nth_error (c_types s) t = Some ti -> ti_fields ti = [] ->
    option_map (name_of (c_types s)) (ti_base ti) = o ->
    (forall m, In (false, m) (fields_of_type md fts j) -> pl_value pl m = true -> primitive m \/ (pl_rank pl m < pl_rank pl (ti_full_name ti))%nat) ->
    (~ primitive (ti_full_name ti) -> base_weight pl o + sum (map weight_in (fields_of_type md fts j)) <= pl_weight pl (ti_full_name ti)) ->
    base_weight pl o + sum (map (fun f : bool * name => pl_weight pl (snd f)) (fields_of_type md fts j)) < 2 ^ 64 ->
    exists s', resolve_fields fuel p md t (N.of_nat j) s = Ok tt s' /\ mid r s'.
  Proof.
    intros M L Mt (ai & Ea) Er Et Ef Eb HF HW HO. pose proof Hl as (Ht & Cf & _). fold tds in Ht, Cf.
    pose proof (nth_lt _ _ _ Er) as Hj.
    assert (ROW : row_at p (tb_type_def (m_tables md)) (handle_of_position TTypeDef (N.of_nat j)) s = Ok row s).
    { apply row_at_run; cbn [handle_of_position]; [lia|]. replace (N.to_nat _) with j by lia. exact Er. }
    assert (Bj : td_field_list row = fb j).
    { pose proof (bound_row (map td_field_list tds) (len (tb_field (m_tables md))) j ltac:(lia)) as Br.
      rewrite nth_error_map, Er in Br. cbn in Br. unfold fb. congruence. }
    destruct (bound_le _ _ Cf j ltac:(lia)) as [B1 B2]. destruct (bound_le _ _ Cf (S j) ltac:(lia)) as [B3 B4].
    pose proof (bound_step _ _ Cf j ltac:(lia)) as Bs. fold fb in B1, B2, B3, B4, Bs. pose proof (proj2 (proj2 Cf)) as Lt.
    assert (K24 : 2 ^ 24 < 2 ^ 64) by reflexivity.
    assert (TY : the_type t s = Ok ti s) by (unfold the_type; now rewrite Et).
    assert (Ta : ti_assembly ti = a0) by (destruct Mt as [_ (x & Ex & Ax)]; congruence).
    assert (TA : the_assembly a0 s = Ok ai s) by (unfold the_assembly; now rewrite Ea).
    assert (OFF : exists off, match ti_base ti with Some b => type_size fuel p b | None => ret 0 end s = Ok off s /\ off <= base_weight pl o).
    { destruct (ti_base ti) as [b|] eqn:Bb; cbn [option_map] in Eb; subst o.
      - pose proof (proj1 (mid_refers _ _ _ _ M Et) b Bb) as Lb. destruct (nth_some _ _ Lb) as [bi Ebi].
        destruct (size_of_type _ _ _ _ M Ebi) as (k & Ek & Lk). exists k. split; [exact Ek|]. cbn [base_weight].
        rewrite (name_of_at _ _ _ Ebi). exact Lk.
      - exists 0. split; [reflexivity|]. lia. }
    destruct OFF as (off & EO & LO).
    set (rl := combine (rows_of (map td_field_list tds) j (tb_field (m_tables md))) (rows_of (map td_field_list tds) j fts)).
    assert (R1 : rows_of (map td_field_list tds) j (tb_field (m_tables md)) =
      firstn (N.to_nat (fb (S j) - fb j)) (skipn (N.to_nat (fb j - 1)) (tb_field (m_tables md)))) by (apply rows_bound; [reflexivity|lia]).
    assert (R2 : rows_of (map td_field_list tds) j fts =
      firstn (N.to_nat (fb (S j) - fb j)) (skipn (N.to_nat (fb j - 1)) fts)) by (apply rows_bound; [exact fts_count|lia]).
    assert (C1 := rows_count (tb_field (m_tables md)) (fb j) (fb (S j)) ltac:(lia) B4).
    assert (C2 := rows_count fts (fb j) (fb (S j)) ltac:(lia) ltac:(rewrite fts_count; exact B4)).
    rewrite <- R1 in C1. rewrite <- R2 in C2.
    assert (Kp : map kept rl = fields_of_type md fts j).
    { unfold fields_of_type. fold tds. rewrite combine_maps. unfold rl, kept. reflexivity. }
    assert (Sn : map snd rl = rows_of (map td_field_list tds) j fts) by (apply map_snd_combine; congruence).
    assert (Cl : List.length rl = N.to_nat (fb (S j) - fb j)) by (unfold rl; rewrite combine_length, C1, C2; lia).
    rewrite <- Kp in HF, HW, HO. rewrite <- Sn in M.
    destruct (load_fields_fwd t rl (fb j) off r s ti L Mt Et) as (s' & E & M'); auto.
    - intros q d e H. apply nth_combine in H as [H1 H2]. rewrite R1 in H1. rewrite R2 in H2.
      split; [apply rows_nth in H1; [exact H1|lia]|]. apply rows_nth_in in H1. apply rows_nth_in in H2.
      exact (Forall2_nth_error _ _ _ _ _ _ (ld_fields _ _ _ _ _ _ LD) H1 H2).
    - intro NP. specialize (HW NP). unfold heft. rewrite Ef, Eb. cbn [map]. change (sum []) with 0. lia.
    - lia.
    - exists s'. split; [|exact M']. unfold resolve_fields. rewrite (bind_ok _ _ _ _ _ ROW).
      rewrite (bind_ok _ _ _ _ _ (run_length_fwd td_field_list (len (tb_field (m_tables md))) j s Cf Hj)). fold fb.
      rewrite (bind_ok _ _ _ _ _ (reserve_fwd (fb (S j) - fb j) s ltac:(lia))). cbv zeta. rewrite Bj.
      rewrite u_add_small by lia. cbn [ovf]. replace (fb j + (fb (S j) - fb j)) with (fb (S j)) by lia.
      rewrite (bind_ok (ret (fb (S j))) _ s _ s eq_refl), (bind_ok _ _ _ _ _ TY), (bind_ok _ _ _ _ _ EO), Ta, (bind_ok _ _ _ _ _ TA), <- Cl.
      exact E.
  Qed.

  Lemma load_methods_fwd t fn : forall rl i r s, loading n0 a0 s -> mine n0 a0 s t -> is_named (c_types s) t fn ->
    (forall q row k, nth_error rl q = Some (row, k) -> row_of (tb_method_def (m_tables md)) (i + N.of_nat q) row /\ method_loads s0 md fn row k) ->
    mid (sum (map snd rl) + r) s ->
    exists s', range_m (List.length rl) i (fun i => m <- load_method p md t i ;; modify_type t (with_method m)) s = Ok tt s' /\ mid r s'.
  Proof.
    induction rl as [|[row k] rl IH]; intros i r s L Mt Nt HR M; cbn [List.length range_m].
    - exists s. split; [reflexivity|exact M].
    - destruct (HR 0%nat row k eq_refl) as [Hr Hk]. rewrite N.add_0_r in Hr. cbn [map snd] in M. rewrite sum_cons, <- N.add_assoc in M.
      destruct (load_method_fwd p top pl s0 md PO Hmd t fn row i k _ s Hr Hk Nt M) as (m & s1 & E1 & M1 & G1).
      pose proof (md_consistent _ _ _ _ _ _ M) as W.
      destruct (pres_run_ok _ _ _ _ _ _ _ (load_method_pres p md t i s (mine_ref _ _ _ _ Mt)) W E1) as (W1 & A1 & V1).
      pose proof (appends_within n0 a0 _ _ (proj1 L) A1) as R1.
      pose proof (loading_within _ _ _ _ L R1) as L1. pose proof (mine_within _ _ _ _ _ Mt R1) as M1t.
      pose proof (is_named_within _ _ _ _ _ _ R1 Nt) as N1. destruct N1 as (ti & Et & Nti).
      set (s2 := set_types s1 (update (c_types s1) t (with_method m))).
      assert (E2 : modify_type t (with_method m) s1 = Ok tt s2) by reflexivity.
      assert (P2 : pres p (within n0 a0) s1 (modify_type t (with_method m)) (fun _ _ => True)).
      { apply modify_type_pres; [apply Mt|intro; repeat split|].
        intros x (A & B & D & G & H & J & K). repeat split; auto.
        - apply Forall_app. split; [exact G|]. constructor; [exact V1|constructor].
        - constructor; [exact V1|exact K]. }
      destruct (pres_run_ok _ _ _ _ _ _ _ P2 W1 E2) as (W2 & R2 & _).
      assert (M2 : mid (sum (map snd rl) + r) s2).
      { apply (mid_update _ s1 t _ ti); auto. eapply fits_same; [..|exact (mid_fits _ _ _ _ M1 Et)]; reflexivity. }
      rewrite (bind_ok _ _ s tt s2); [|now rewrite (bind_ok _ _ _ _ _ E1)].
      apply (IH (i + 1) r s2); auto.
      + exact (loading_within _ _ _ _ L1 R2).
      + exact (mine_within _ _ _ _ _ M1t R2).
      + apply (is_named_within _ _ _ _ _ _ R2). exists ti. auto.
      + intros q row' e He. destruct (HR (S q) row' e He) as [Q1 Q2]. split; [|exact Q2].
        replace (i + 1 + N.of_nat q) with (i + N.of_nat (S q)) by lia. exact Q1.
  Qed.

  Lemma resolve_methods_fwd t j row fn r s : mid (sum (rows_of (map td_method_list tds) j ks) + r) s ->
    loading n0 a0 s -> mine n0 a0 s t -> nth_error tds j = Some row -> is_named (c_types s) t fn ->
    Forall2 (method_loads s0 md fn) (rows_of (map td_method_list tds) j (tb_method_def (m_tables md))) (rows_of (map td_method_list tds) j ks) ->
    exists s', resolve_methods p md t (N.of_nat j) s = Ok tt s' /\ mid r s'.
  Proof.
    intros M L Mt Er Nt HM. pose proof Hl as (Ht & _ & Cm). fold tds in Ht, Cm.
    pose proof (nth_lt _ _ _ Er) as Hj.
    assert (ROW : row_at p (tb_type_def (m_tables md)) (handle_of_position TTypeDef (N.of_nat j)) s = Ok row s).
    { apply row_at_run; cbn [handle_of_position]; [lia|]. replace (N.to_nat _) with j by lia. exact Er. }
    assert (Bj : td_method_list row = mb j).
    { pose proof (bound_row (map td_method_list tds) (len (tb_method_def (m_tables md))) j ltac:(lia)) as Br.
      rewrite nth_error_map, Er in Br. cbn in Br. unfold mb. congruence. }
    destruct (bound_le _ _ Cm j ltac:(lia)) as [B1 B2]. destruct (bound_le _ _ Cm (S j) ltac:(lia)) as [B3 B4].
    pose proof (bound_step _ _ Cm j ltac:(lia)) as Bs. fold mb in B1, B2, B3, B4, Bs. pose proof (proj2 (proj2 Cm)) as Lt.
    assert (K24 : 2 ^ 24 < 2 ^ 64) by reflexivity.
    set (rl := combine (rows_of (map td_method_list tds) j (tb_method_def (m_tables md))) (rows_of (map td_method_list tds) j ks)).
    assert (R1 : rows_of (map td_method_list tds) j (tb_method_def (m_tables md)) =
      firstn (N.to_nat (mb (S j) - mb j)) (skipn (N.to_nat (mb j - 1)) (tb_method_def (m_tables md)))) by (apply rows_bound; [reflexivity|lia]).
    assert (R2 : rows_of (map td_method_list tds) j ks =
      firstn (N.to_nat (mb (S j) - mb j)) (skipn (N.to_nat (mb j - 1)) ks)) by (apply rows_bound; [exact ks_count|lia]).
    assert (C1 := rows_count (tb_method_def (m_tables md)) (mb j) (mb (S j)) ltac:(lia) B4).
    assert (C2 := rows_count ks (mb j) (mb (S j)) ltac:(lia) ltac:(rewrite ks_count; exact B4)).
    rewrite <- R1 in C1. rewrite <- R2 in C2.
    assert (Sn : map snd rl = rows_of (map td_method_list tds) j ks) by (apply map_snd_combine; congruence).
    assert (Cl : List.length rl = N.to_nat (mb (S j) - mb j)) by (unfold rl; rewrite combine_length, C1, C2; lia).
    rewrite <- Sn in M.
    destruct (load_methods_fwd t fn rl (mb j) r s L Mt Nt) as (s' & E & M'); auto.
    - intros q d k H. apply nth_combine in H as [H1 H2]. split; [|exact (Forall2_nth_error _ _ _ _ _ _ HM H1 H2)].
      rewrite R1 in H1. apply rows_nth in H1; [exact H1|lia].
    - exists s'. split; [|exact M']. unfold resolve_methods. rewrite (bind_ok _ _ _ _ _ ROW).
      rewrite (bind_ok _ _ _ _ _ (run_length_fwd td_method_list (len (tb_method_def (m_tables md))) j s Cm Hj)). fold mb.
      rewrite (bind_ok _ _ _ _ _ (reserve_fwd (mb (S j) - mb j) s ltac:(lia))). cbv zeta. rewrite Bj.
      rewrite u_add_small by lia. cbn [ovf]. replace (mb j + (mb (S j) - mb j)) with (mb (S j)) by lia.
      rewrite (bind_ok (ret (mb (S j))) _ s _ s eq_refl), <- Cl. exact E.
  Qed.

  (** ** One type *)

  Definition budget (i : nat) : N :=
    field_vectors (skipn (N.to_nat (fb i - 1)) fts) + sum (skipn (N.to_nat (mb i - 1)) ks).
  Lemma field_vectors_app l l' : field_vectors (l ++ l') = field_vectors l + field_vectors l'.
  Proof. unfold field_vectors. now rewrite map_app, sum_app. Qed.
  Lemma budget_step i : (i < List.length tds)%nat ->
    budget i = field_vectors (rows_of (map td_field_list tds) i fts) + (sum (rows_of (map td_method_list tds) i ks) + budget (S i)).
  Proof.
    intro Hi. pose proof Hl as (_ & Cf & Cm). fold tds in Cf, Cm.
    destruct (bound_le _ _ Cf i ltac:(lia)) as [B1 _]. pose proof (bound_step _ _ Cf i ltac:(lia)) as B2. fold fb in B1, B2.
    destruct (bound_le _ _ Cm i ltac:(lia)) as [B3 _]. pose proof (bound_step _ _ Cm i ltac:(lia)) as B4. fold mb in B3, B4.
    unfold budget at 1. rewrite (rows_split fts (fb i) (fb (S i))) by lia. rewrite (rows_split ks (mb i) (mb (S i))) by lia.
    rewrite field_vectors_app, sum_app.
    rewrite (rows_bound (map td_field_list tds) fts (len (tb_field (m_tables md))) i fts_count) by lia.
    rewrite (rows_bound (map td_method_list tds) ks (len (tb_method_def (m_tables md))) i ks_count) by lia.
    fold fb mb. unfold budget. lia.
  Qed.

  Lemma resolve_fwd t i row ti s : mid (budget i) s -> loading n0 a0 s -> mine n0 a0 s t -> alive s a0 -> nth_error tds i = Some row ->
    nth_error (c_types s) t = Some ti -> type_as md a0 row ti -> ti_base ti = None -> ti_fields ti = [] -> ti_interfaces ti = [] ->
    exists s', resolve fuel p md t (N.of_nat i) s = Ok tt s' /\ mid (budget (S i)) s'.
  Proof.
    intros M L Mt Al Er Et As Eb Ef Ei. rewrite (budget_step i (nth_lt _ _ _ Er)) in M.
    destruct (ld_types _ _ _ _ _ _ LD i row Er) as (n & ns & o & Hn & Hns & Hx & Hsh & Hb & HF & HW & HO & HM).
    assert (Fn : ti_full_name ti = qualified n ns).
    { rewrite (tas_full_name _ _ _ _ As), (heap_text_det _ _ _ _ (tas_name _ _ _ _ As) Hn), (heap_text_det _ _ _ _ (tas_namespace _ _ _ _ As) Hns). reflexivity. }
    rewrite <- Fn in Hb, HF, HW, HM.
    destruct (resolve_base_fwd t i row ti o _ s M L Mt Er Et Eb Ef Ei Hx) as (s1 & t1 & E1 & M1 & Et1 & F1 & G1 & O1).
    { intros b X. exact (Hb b X). }
    { intro NP. specialize (HW NP). lia. }
    destruct (pres_run_ok _ _ _ _ _ _ _ (resolve_base_pres p md n0 a0 t _ s L Mt) (md_consistent _ _ _ _ _ _ M) E1) as (_ & R1 & _).
    pose proof (loading_within _ _ _ _ L R1) as L1. pose proof (mine_within _ _ _ _ _ Mt R1) as Mt1. pose proof (wi_alive _ _ _ _ R1 Al) as Al1.
    destruct (resolve_kind_fwd t i row t1 _ s1 M1 L1 Mt1 Er Et1) as (s2 & t2 & E2 & M2 & Et2 & F2 & G2 & O2).
    destruct (pres_run_ok _ _ _ _ _ _ _ (resolve_kind_pres p md n0 a0 t _ s1 L1 Mt1) (md_consistent _ _ _ _ _ _ M1) E2) as (_ & R2 & _).
    pose proof (loading_within _ _ _ _ L1 R2) as L2. pose proof (mine_within _ _ _ _ _ Mt1 R2) as Mt2. pose proof (wi_alive _ _ _ _ R2 Al1) as Al2.
    assert (F2' : ti_full_name t2 = ti_full_name ti) by congruence.
    rewrite <- F2' in HF, HW.
    destruct (resolve_fields_fwd t i row t2 o _ s2 M2 L2 Mt2 Al2 Er Et2 ltac:(congruence) ltac:(congruence) HF HW HO) as (s3 & E3 & M3).
    destruct (pres_run_ok _ _ _ _ _ _ _ (resolve_fields_pres p md n0 a0 fuel t _ s2 L2 Mt2) (md_consistent _ _ _ _ _ _ M2) E3) as (_ & R3 & _).
    pose proof (loading_within _ _ _ _ L2 R3) as L3. pose proof (mine_within _ _ _ _ _ Mt2 R3) as Mt3.
    assert (N3 : is_named (c_types s3) t (ti_full_name ti)).
    { apply (is_named_within _ _ _ _ _ _ R3). exists t2. auto. }
    destruct (resolve_methods_fwd t i row _ _ s3 M3 L3 Mt3 Er N3 HM) as (s4 & E4 & M4).
    exists s4. split; [|exact M4]. unfold resolve. now rewrite (bind_ok _ _ _ _ _ E1), (bind_ok _ _ _ _ _ E2), (bind_ok _ _ _ _ _ E3).
  Qed.

  (** ** All types *)

  Variable st : name * list byte * list method_info * list tref * option method_info.
  Hypothesis Htr : len (tb_type_ref (m_tables md)) < 2 ^ 64.
  Definition labelled (m : nat) (s : vm) : Prop :=
    forall j, (j < List.length tds)%nat -> exists row ti, nth_error tds j = Some row /\
      nth_error (c_types s) (m + j) = Some ti /\ type_as md a0 row ti.
  Lemma labelled_within m s s' : within n0 a0 s s' -> labelled m s -> labelled m s'.
  Proof.
    intros R H j Hj. destruct (H j Hj) as (row & ti & X & Y & [Z1 Z2 Z3 Z4 Z5]).
    destruct (wi_types _ _ _ _ R _ _ Y) as (ti' & Y' & (I1 & I2 & I3 & I4 & I5 & I6)). exists row, ti'.
    split; [exact X|]. split; [exact Y'|]. split; congruence.
  Qed.

  Lemma resolve_types_fwd m : forall n i s, mid (budget i) s -> loading n0 a0 s -> Forall (mine n0 a0 s) (seq (m + i) n) -> alive s a0 ->
    (i + n = List.length tds)%nat -> (m + List.length tds <= List.length (c_types s))%nat -> labelled m s ->
    held md a0 st m i s -> typed md a0 st m i s ->
    exists s', resolve_types fuel p md (seq (m + i) n) (N.of_nat i) s = Ok tt s' /\ mid 0 s'.
  Proof.
    induction n as [|n IH]; intros i s M L F Al Hi Hc Lb H T; cbn [seq resolve_types].
    - exists s. split; [reflexivity|]. eapply mid_less; [|exact M]. lia.
    - cbn [seq] in F. inversion F as [|? ? Mt F']; subst. pose proof (md_consistent _ _ _ _ _ _ M) as W.
      destruct (Lb i ltac:(lia)) as (row & ti & Er & Et & As).
      destruct (ty_rest _ _ _ _ _ _ T i ltac:(fold tds; lia)) as (x & Ex & X1 & X2 & X3). assert (x = ti) as -> by congruence.
      destruct (resolve_fwd _ _ _ _ _ M L Mt Al Er Et As X1 X2 X3) as (s1 & E1 & M1).
      destruct (resolve_run p md Hmd n0 a0 st Hl _ _ _ _ _ W L Mt ltac:(fold tds; lia) H E1) as (W1 & R1 & H1).
      destruct (resolve_typed p md Hmd n0 a0 st Hl Htr _ _ _ _ _ W L Mt ltac:(fold tds; lia) Hc H T E1) as [T1 N1].
      rewrite (bind_ok _ _ _ _ _ E1).
      replace (S (m + i)) with (m + S i)%nat in * by lia. replace (N.of_nat i + 1) with (N.of_nat (S i)) by lia.
      pose proof (wi_count _ _ _ _ R1) as C1.
      apply IH; auto.
      + exact (loading_within _ _ _ _ L R1).
      + eapply Forall_impl; [|exact F']. intros u Hu. exact (mine_within _ _ _ _ _ Hu R1).
      + exact (wi_alive _ _ _ _ R1 Al).
      + lia.
      + lia.
      + exact (labelled_within _ _ _ R1 Lb).
  Qed.

  (** ** The names of the types *)

  Lemma blank_fits nms row ti j : nth_error tds j = Some row -> type_as md a0 row ti -> blank ti -> fits pl nms ti.
  Proof.
    intros Er As (_ & Eb & Ef & Ei).
    destruct (ld_types _ _ _ _ _ _ LD j row Er) as (n & ns & o & Hn & Hns & Hx & Hsh & _).
    split; rewrite ?Eb, ?Ef, ?Ei.
    - discriminate.
    - intros i [].
    - intros f [].
    - intros _. cbn [option_map base_weight map]. change (sum []) with 0. lia.
    - intros x Ix E. rewrite (tas_full_name _ _ _ _ As) in E.
      rewrite (heap_text_det _ _ _ _ (tas_name _ _ _ _ As) Hn), (heap_text_det _ _ _ _ (tas_namespace _ _ _ _ As) Hns) in E.
      rewrite (heap_text_det _ _ _ _ (tas_name _ _ _ _ As) Hn). auto.
  Qed.
  Lemma load_type_fwd i row s : consistent p s -> room p s 1 -> nth_error tds i = Some row ->
    exists t s', load_type p md a0 (N.of_nat i) s = Ok t s'.
  Proof.
    intros W R Er. destruct (ld_types _ _ _ _ _ _ LD i row Er) as (n & ns & o & Hn & Hns & _).
    assert (ROW : row_at p (tb_type_def (m_tables md)) (handle_of_position TTypeDef (N.of_nat i)) s = Ok row s).
    { apply row_at_run; cbn [handle_of_position]; [lia|]. replace (N.to_nat _) with i by lia. exact Er. }
    unfold load_type. rewrite (bind_ok _ _ _ _ _ ROW), (string_at_text _ _ _ Hn), (string_at_text _ _ _ Hns).
    rewrite (bind_ok (unwrap (Some n)) _ s n s eq_refl), (bind_ok (unwrap (Some ns)) _ s ns s eq_refl).
    unfold bind at 1, next_type_id. assert (U : exists k, u_add p 32 (c_next_id s) 1 = Some k).
    { destruct p; [|unfold u_add; destruct (_ <? _); eauto]. rewrite BaseFacts.u_add_small; [eauto|]. specialize (R eq_refl). rewrite (next_ok _ _ W).
      rewrite N.mod_small by lia. lia. }
    destruct U as [k ->]. unfold add_type. eauto.
  Qed.
  Lemma load_types_fwd : forall n i s, (i + n <= List.length tds)%nat -> consistent p s -> planned pl (c_types s) -> loading n0 a0 s ->
    room p s (N.of_nat n) -> exists ts s', load_types p md a0 n (N.of_nat i) s = Ok ts s' /\ planned pl (c_types s').
  Proof.
    induction n as [|n IH]; intros i s Hi W P L R; cbn [load_types].
    - exists [], s. auto.
    - destruct (nth_some tds i ltac:(lia)) as [row Er].
      destruct (load_type_fwd i row s W) as (t & s1 & E1); [eapply room_less; [|exact R]; lia|exact Er|].
      destruct (pres_run_ok _ _ _ _ _ _ _ (load_type_pres p md n0 a0 _ s L) W E1) as (W1 & R1 & _).
      destruct (load_type_as p md a0 Hl i s t s1 ltac:(fold tds; lia) E1) as (_ & row' & ti & Er' & T1 & As & Bl).
      assert (P1 : planned pl (c_types s1)).
      { rewrite T1. eapply planned_app; eauto. eapply blank_fits; eauto. }
      destruct (IH (S i) s1) as (ts & s2 & E2 & P2); [lia|exact W1|exact P1|exact (loading_within _ _ _ _ L R1)| |].
      { intro X. specialize (R X). rewrite T1. unfold len in *. rewrite app_length. cbn [List.length]. lia. }
      exists (t :: ts), s2. split; [|exact P2]. rewrite (bind_ok _ _ _ _ _ E1). replace (N.of_nat i + 1) with (N.of_nat (S i)) by lia.
      now rewrite (bind_ok _ _ _ _ _ E2).
  Qed.

  (** ** Interfaces *)

  Lemma row_of_name tab k n s : row_name md tab k n ->
    match tab with
    | InTypeDef => d <- row_at p (tb_type_def (m_tables md)) k ;; full_name_at md (td_name d) (td_namespace d)
    | InTypeRef => d <- row_at p (tb_type_ref (m_tables md)) k ;; full_name_at md (tr_name d) (tr_namespace d)
    | InTypeSpec => ret n
    end s = Ok n s.
  Proof.
    intros [row d x ns H1 H2 H3 H4|row d x ns H1 H2 H3 H4];
      rewrite (bind_ok _ _ _ _ _ (row_at_run p _ row d s H1 H2)); unfold full_name_at;
      rewrite (string_at_text _ _ _ H3), (string_at_text _ _ _ H4); reflexivity.
  Qed.
  Lemma load_interface_fwd ii s : mid 0 s -> loading n0 a0 s -> rows_named p md n0 s -> In ii (tb_interface_impl (m_tables md)) ->
    exists s', load_interface_impl p md ii s = Ok tt s' /\ mid 0 s'.
  Proof.
    intros M L RN Hin. pose proof (md_consistent _ _ _ _ _ _ M) as W.
    destruct (ld_interfaces _ _ _ _ _ _ LD ii Hin) as (c & tab & k & i & Hc & Hi & Ni & Ai & Nv).
    destruct (known_latest p s c W (md_known _ _ _ _ _ _ M c (or_intror (ex_intro _ _ Hc)))) as (t & Lt & Gt).
    destruct (known_latest p s i W (md_known _ _ _ _ _ _ M i Ai)) as (u & Lu & Gu).
    assert (E : load_interface_impl p md ii s = Ok tt (set_types s (update (c_types s) t (with_interface u)))).
    { unfold load_interface_impl. pose proof (row_of_name InTypeDef (ii_class ii) c s Hc) as E1. cbv beta iota in E1.
      apply bind_inv_ok in E1 as (d & s1 & E1 & E2). pose proof (pures _ _ _ _ (pure_row_at p _ _) E1) as ->.
      rewrite (bind_ok _ _ _ _ _ E1), (bind_ok _ _ _ _ _ E2), (bind_ok _ _ _ _ _ Gt).
      rewrite (bind_ok (unwrap (Some t)) _ s t s eq_refl). rewrite Hi.
      pose proof (row_of_name tab k i s Ni) as E3. destruct tab; [| |inversion Ni]; cbn [named_ref ref_table ref_index];
        rewrite (bind_ok _ _ _ _ _ E3), (bind_ok _ _ _ _ _ Gu); reflexivity. }
    exists (set_types s (update (c_types s) t (with_interface u))). split; [exact E|].
    destruct Lt as [(ti & Et & Nt) _]. apply (mid_update 0 s t _ ti); auto.
    - pose proof (mid_fits _ _ _ _ M Et) as [F1 F2 F3 F4 F5]. split; cbn [ti_base ti_fields ti_full_name ti_name with_interface]; auto.
      cbn [ti_interfaces with_interface]. intros v Hv. apply in_app_or in Hv as [Hv|[<-|[]]]; [auto|].
      rewrite (name_of_named _ _ _ (proj1 Lu)). exact Nv.
    - exact (proj1 (pres_run_ok _ _ _ _ _ _ _ (load_interface_impl_pres p md n0 a0 ii s L RN) W E)).
  Qed.
  Lemma load_interfaces_fwd m : forall rows s, incl rows (tb_interface_impl (m_tables md)) -> mid 0 s -> loading n0 a0 s -> rows_named p md n0 s ->
    held md a0 st m (List.length tds) s ->
    exists s', iter_m (load_interface_impl p md) rows s = Ok tt s' /\ mid 0 s' /\ within n0 a0 s s' /\ held md a0 st m (List.length tds) s'.
  Proof.
    induction rows as [|ii rows IH]; intros s Hin M L RN H; cbn [iter_m].
    - exists s. auto using within_refl.
    - destruct (load_interface_fwd ii s M L RN (Hin ii (or_introl eq_refl))) as (s1 & E1 & M1).
      destruct (pres_run_ok _ _ _ _ _ _ _ (load_interface_impl_pres p md n0 a0 ii s L RN) (md_consistent _ _ _ _ _ _ M) E1) as (W1 & R1 & _).
      destruct (IH s1) as (s2 & E2 & M2 & R2 & H2); auto.
      + intros x Hx. apply Hin. now right.
      + exact (loading_within _ _ _ _ L R1).
      + eapply rows_named_within; eauto.
      + eapply held_still; [exact (load_interface_impl_still _ _ _ _ _ _ _ E1)|exact (named_le_within _ _ _ _ R1)|exact H].
      + exists s2. split; [now rewrite (bind_ok _ _ _ _ _ E1)|]. split; [exact M2|]. split; [eauto using within_trans|exact H2].
  Qed.

  (** ** Everything *)

  Hypothesis Hep : m_entry_point md = entry_point_of (ch_entry_point (m_cli_header md)).

  Lemma methods_fwd s : forall ts, Forall (fun t => (t < List.length (c_types s))%nat) ts ->
    exists defs, map_m (fun t => ti <- the_type t ;; ret (ti_methods ti)) ts s = Ok defs s.
  Proof.
    induction ts as [|t ts IH]; intro F; cbn [map_m]; [exists []; reflexivity|]. inversion F as [|? ? H F']; subst.
    destruct (IH F') as [defs E]. destruct (nth_some _ _ H) as [ti Et].
    assert (TY : the_type t s = Ok ti s) by (unfold the_type; now rewrite Et).
    exists (ti_methods ti :: defs). rewrite (bind_ok _ _ s (ti_methods ti) s) by now rewrite (bind_ok _ _ _ _ _ TY).
    now rewrite (bind_ok _ _ _ _ _ E).
  Qed.

  Lemma load_contents_fwd s : consistent p s -> planned pl (c_types s) -> loading n0 a0 s -> alive s a0 -> fields_of a0 st s [] ->
    c_types s = c_types s0 -> exists s', load_contents fuel p md a0 s = Ok tt s' /\ planned pl (c_types s') /\
      forall x, available s0 md x -> known s' x.
  Proof.
    intros W P L Al F Ts. set (m := List.length (c_types s)). set (n := List.length tds).
    pose proof Hl as (Ht & Cf & Cm). fold tds in Ht, Cf, Cm.
    pose proof (ld_room _ _ _ _ _ _ LD) as Rm. fold tds in Rm.
    assert (Rn : room p s (N.of_nat n)).
    { intro X. specialize (Rm X). rewrite Ts. unfold len in *. fold n in Rm. lia. }
    destruct (load_types_fwd n 0 s ltac:(lia) W P L Rn) as (ts & s1 & E1 & P1).
    destruct (pres_run_ok _ _ _ _ _ _ _ (load_types_pres p md n0 a0 _ _ s L) W E1) as (W1 & R1 & M1 & _ & N1).
    destruct (load_types_as p md a0 Hl Htr n 0 _ _ _ (Nat.le_refl _) E1) as (A1 & -> & (l1 & T1 & Len1) & D1). fold m in D1, M1, E1.
    fold tds in D1. cbn [Nat.add] in D1.
    pose proof (loading_within _ _ _ _ L R1) as L1. pose proof (wi_alive _ _ _ _ R1 Al) as Al1.
    assert (Lb : labelled m s1).
    { intros j Hj. destruct (D1 j Hj) as (row & ti & X1 & X2 & X3 & _). eauto. }
    assert (K1 : forall x, available s0 md x -> known s1 x).
    { intros x [(ti & I & Q)|(k & Q)].
      - exists ti. split; [|exact Q]. rewrite T1, Ts. apply in_or_app. now left.
      - inversion Q as [row d y ns G1 G2 G3 G4|]; subst. pose proof (nth_lt _ _ _ G2) as Hk. fold tds in G2, Hk.
        destruct (Lb _ Hk) as (row & ti & X1 & X2 & X3). exists ti. split; [exact (nth_error_In _ _ X2)|].
        assert (row = d) as -> by congruence.
        rewrite (tas_full_name _ _ _ _ X3), (heap_text_det _ _ _ _ (tas_name _ _ _ _ X3) G3), (heap_text_det _ _ _ _ (tas_namespace _ _ _ _ X3) G4). reflexivity. }
    assert (B0 : budget 0 = field_vectors fts + sum ks).
    { unfold budget. rewrite (bound_first _ _ Cf : fb 0 = 1), (bound_first _ _ Cm : mb 0 = 1). reflexivity. }
    assert (Mi : mid (budget 0) s1).
    { split; auto. intro X. specialize (Rm X). rewrite T1, Ts, B0. unfold field_vectors. unfold len in *. rewrite app_length, Len1. fold n in Rm. lia. }
    assert (H1 : held md a0 st m 0 s1).
    { split.
      - exists []. split; [destruct F as (ai & Ei & Fi); exists ai; rewrite A1; auto|]. split.
        + rewrite len_nil. symmetry. exact (bound_first _ _ Cf).
        + intros [|q] f X; discriminate.
      - intros j Hj. lia.
      - intros j Hj. destruct (D1 j) as (row & ti & _ & X & _ & Y); [exact (proj2 Hj)|]. exists ti. split; [exact X|apply Y]. }
    assert (H1' : typed md a0 st m 0 s1).
    { split; [intros j Hj; lia|]. intros j Hj. destruct (D1 j) as (row & ti & _ & X & _ & Y); [exact (proj2 Hj)|]. exists ti.
      split; [exact X|apply Y]. }
    assert (Hc : (m + List.length tds <= List.length (c_types s1))%nat) by (rewrite T1, app_length, Len1; subst m n; lia).
    replace m with (m + 0)%nat in M1 by lia.
    destruct (resolve_types_fwd m n 0 s1 Mi L1 M1 Al1 eq_refl Hc Lb H1 H1') as (s2 & E2 & M2).
    destruct (resolve_types_run p md Hmd n0 a0 st Hl fuel m n 0 s1 s2 W1 L1 M1 eq_refl H1 E2) as (W2 & R2 & H2). fold tds in H2.
    pose proof (loading_within _ _ _ _ L1 R2) as L2. pose proof (wi_alive _ _ _ _ R2 Al1) as Al2.
    assert (RN : rows_named p md n0 s2).
    { eapply rows_named_within; [|exact R2]. apply rows_named_all. intros j Hj. apply N1. unfold len in Hj. fold tds in Hj. fold n in Hj. lia. }
    destruct (load_interfaces_fwd m (tb_interface_impl (m_tables md)) s2 (fun x H => H) M2 L2 RN H2) as (s3 & E3 & M3 & R3 & H3).
    pose proof (wi_alive _ _ _ _ R3 Al2) as (ai & Ea).
    pose proof (wi_count _ _ _ _ R2) as C2. pose proof (wi_count _ _ _ _ R3) as C3.
    set (s4 := set_arena s3 (update (c_arena s3) a0 (option_map (with_types (seq m n))))).
    assert (E4 : modify_assembly a0 (with_types (seq m n)) s3 = Ok tt s4) by reflexivity.
    assert (Fm : Forall (fun t => (t < List.length (c_types s4))%nat) (seq m n)).
    { apply Forall_forall. intros t I. apply in_seq in I. cbn [c_types set_arena s4]. change (c_types s4) with (c_types s3). lia. }
    destruct (methods_fwd s4 (seq m n) Fm) as [defs E5].
    destruct (map_methods _ _ _ _ E5) as (_ & Ld & Dd). rewrite seq_length in Ld.
    assert (Cd : len (concat defs) = len (tb_method_def (m_tables md))).
    { assert (Hlen : forall j l, nth_error defs j = Some l -> len l = mb (S (0 + j)) - mb (0 + j)%nat).
      { intros j l X. destruct (Dd _ _ X) as (t & Y & Z). pose proof (nth_lt _ _ _ X) as Hj. rewrite Ld in Hj.
        assert (t = (m + j)%nat) as ->.
        { rewrite (nth_error_nth' _ 0%nat) in Y by (rewrite seq_length; exact Hj). rewrite seq_nth in Y by exact Hj. congruence. }
        destruct (h_methods _ _ _ _ _ _ H3 j Hj) as (k & Z' & Lk & _). destruct Z as (u & U1 & U2), Z' as (v & V1 & V2). change (c_types s4) with (c_types s3) in U1.
        assert (k = l) as -> by congruence. exact Lk. }
      assert (Hmon : forall j, (j < List.length defs)%nat -> mb (0 + j)%nat <= mb (S (0 + j))).
      { intros j Hj. apply bound_step; [exact Cm|]. rewrite nm. fold n. lia. }
      destruct (concat_bound md Htr mb defs 0 Hlen Hmon) as [Q1 _]. cbn [Nat.add] in Q1. rewrite Ld in Q1.
      pose proof (bound_last (map td_method_list tds) (len (tb_method_def (m_tables md)))) as Bn. rewrite nm in Bn. fold mb n in Bn.
      rewrite (bound_first _ _ Cm : mb 0 = 1), Bn in Q1. lia. }
    set (s6 := set_arena s4 (update (c_arena s4) a0 (option_map (with_method_defs (concat defs))))).
    assert (E6 : modify_assembly a0 (with_method_defs (concat defs)) s4 = Ok tt s6) by reflexivity.
    set (bi := with_method_defs (concat defs) (with_types (seq m n) ai)).
    assert (Eb : nth_error (c_arena s6) a0 = Some (Some bi)).
    { subst s6 s4. cbn [c_arena set_arena]. rewrite !nth_update, !Nat.eqb_refl, Ea. reflexivity. }
    assert (X : exists s7, match m_entry_point md with
      | None => ret tt
      | Some ep => o <- resolve_method p a0 (token_new ep TMethodDef) ;; x <- ok_or o "Missing entry point" ;; modify_assembly a0 (with_entry x)
      end s6 = Ok tt s7 /\ c_types s7 = c_types s3).
    { rewrite Hep. destruct (ld_entry _ _ _ _ _ _ LD) as [E|(r & E & Hr)].
      - unfold entry_point_of. rewrite E. cbn. eauto.
      - pose proof (proj2 (proj2 Cm)) as Lt. assert (K : r < 2 ^ 24) by lia.
        destruct (token_parts 6 r K ltac:(reflexivity)) as [I _]. change (6 * 2 ^ 24) with 0x06000000 in I.
        unfold entry_point_of. rewrite E, I. destruct (N.eqb_spec r 0); [lia|].
        destruct (C09_token_round_trip_partial (r - 1) TMethodDef ltac:(lia)) as [I' T'].
        destruct (nth_some (concat defs) (N.to_nat (r - 1 - 1))) as [x Hx]; [unfold len in *; lia|].
        assert (RM : resolve_method p a0 (token_new (r - 1) TMethodDef) s6 = Ok (Some x) s6).
        { unfold resolve_method. assert (TA : the_assembly a0 s6 = Ok bi s6) by (unfold the_assembly; now rewrite Eb).
          rewrite (bind_ok _ _ _ _ _ TA), T', N.eqb_refl. cbv beta iota.
          unfold get_row. rewrite I'. rewrite u_sub_small by lia. cbn [a_method_defs bi with_method_defs].
          change (a_method_defs bi) with (concat defs). now rewrite Hx. }
        rewrite (bind_ok _ _ _ _ _ RM). eexists. split; [reflexivity|]. reflexivity. }
    destruct X as (s7 & E7 & T7). exists (set_assemblies s7 (c_assemblies s7 ++ [a0])).
    split; [|split; [cbn [c_types set_assemblies]; rewrite T7; exact (md_planned _ _ _ _ _ _ M3)|
      intros x A; unfold known; cbn [c_types set_assemblies]; rewrite T7; exact (md_known _ _ _ _ _ _ M3 x A)]].
    unfold load_contents. fold tds n. rewrite (bind_ok _ _ _ _ _ E1).
    replace (seq (m + 0) n) with (seq m n) in E2 by now rewrite Nat.add_0_r. change (N.of_nat 0) with 0 in E2.
    now rewrite (bind_ok _ _ _ _ _ E2), (bind_ok _ _ _ _ _ E3), (bind_ok _ _ _ _ _ E4), (bind_ok _ _ _ _ _ E5), (bind_ok _ _ _ _ _ E6), (bind_ok _ _ _ _ _ E7).
  Qed.
End Types.

(** ** The whole load *)

Lemma last_called_det {A} (nm : A -> name) n l x o : last_called nm n l (Some x) -> last_called nm n l o -> o = Some x.
Proof.
  intros (l1 & l2 & -> & Nx & Lx) Ho. destruct o as [y|]; [|exfalso; apply (Ho x); [apply in_elt|exact Nx]].
  destruct Ho as (r1 & r2 & Q & Ny & Ly). f_equal. revert r1 Q. induction l1 as [|z l1 IH]; intros [|w r1] Q; cbn in Q.
  - now injection Q.
  - injection Q as <- ->. exfalso. apply (Lx y); [apply in_elt|exact Ny].
  - injection Q as -> <-. exfalso. apply (Ly x); [apply in_elt|exact Nx].
  - injection Q as _ Q. exact (IH _ Q).
Qed.
Lemma method_refs_fwd p md s : consistent p s -> each knows s -> forall rows,
  (forall row, In row rows -> of_type_ref row = true -> exists fn t ti x m,
      parent_of md row fn /\ latest (c_types s) fn t /\ nth_error (c_types s) t = Some ti /\
      heap_text md (mr_name row) x /\ last_called mt_name x (ti_methods ti) (Some m)) ->
  exists ms, load_method_refs p md rows s = Ok ms s.
Proof.
  intros W K. induction rows as [|row rows IH]; intro H; cbn [load_method_refs]; [exists []; reflexivity|].
  destruct IH as [ms E]; [intros r I; apply H; now right|]. pose proof (H row (or_introl eq_refl)) as X. unfold of_type_ref in X.
  destruct (ref_table (mr_parent row)); try (exists ms; exact E).
  destruct (X eq_refl) as (fn & t & ti & x & m & (tr & n & ns & [H1 H2] & H3 & H4 & ->) & Lt & Et & Hx & Lc).
  pose proof (kn_method _ _ (K t ti Et) x) as Q. assert (Em : map_get bytes_eqb x (ti_method_map ti) = Some m).
  { exact (last_called_det _ _ _ _ _ Lc Q). }
  exists (m :: ms). rewrite (bind_ok _ _ _ _ _ (row_at_run p _ _ tr s H1 H2)).
  rewrite (bind_ok _ _ s (qualified n ns) s)
    by (unfold full_name_at; rewrite (string_at_text _ _ _ H3), (string_at_text _ _ _ H4); reflexivity).
  destruct (known_latest p s (qualified n ns) W) as (u & Lu & Gu).
  { destruct Lt as [(y & Ey & Ny) _]. exists y. split; [exact (nth_error_In _ _ Ey)|exact Ny]. }
  assert (u = t) as -> by exact (latest_one _ _ _ _ Lu Lt).
  rewrite (bind_ok _ _ _ _ _ Gu). rewrite (bind_ok (ok_or (Some t) _) _ s t s eq_refl), (string_at_text _ _ _ Hx).
  rewrite (bind_ok (ok_or (Some x) _) _ s x s eq_refl).
  assert (GM : get_method t x s = Ok (Some m) s).
  { unfold get_method. assert (TY : the_type t s = Ok ti s) by (unfold the_type; now rewrite Et). rewrite (bind_ok _ _ _ _ _ TY), Em. reflexivity. }
  rewrite (bind_ok _ _ _ _ _ GM). rewrite (bind_ok (ok_or (Some m) _) _ s m s eq_refl), (bind_ok _ _ _ _ _ E). reflexivity.
Qed.
Lemma type_refs_fwd p md s : consistent p s ->
  (forall row, In row (tb_type_ref (m_tables md)) -> exists n ns,
      heap_text md (tr_name row) n /\ heap_text md (tr_namespace row) ns /\ known s (qualified n ns)) ->
  exists ts, load_type_refs p md s = Ok ts s.
Proof.
  intros W. unfold load_type_refs. induction (tb_type_ref (m_tables md)) as [|row rows IH]; intro H; cbn [map_m]; [exists []; reflexivity|].
  destruct IH as [ts E]; [intros r I; apply H; now right|]. destruct (H row (or_introl eq_refl)) as (n & ns & H1 & H2 & K).
  destruct (known_latest p s (qualified n ns) W K) as (u & Lu & Gu). exists (u :: ts).
  rewrite (bind_ok _ _ s u s); [now rewrite (bind_ok _ _ _ _ _ E)|].
  rewrite (bind_ok _ _ s (qualified n ns) s)
    by (unfold full_name_at; rewrite (string_at_text _ _ _ H1), (string_at_text _ _ _ H2); reflexivity).
  now rewrite (bind_ok _ _ _ _ _ Gu).
Qed.

Lemma load_data_fwd p fs top pl s data md fts ks f : consistent p s -> each knows s -> read_metadata p data tt = Ok md tt ->
  m_entry_point md = entry_point_of (ch_entry_point (m_cli_header md)) ->
  plan_ok top pl -> planned pl (c_types s) -> loadable p s md pl fts ks -> (top + top + 2 <= f)%nat ->
  exists s', load_data (S f) p fs data s = Ok (List.length (c_arena s)) s' /\ planned pl (c_types s') /\
    forall x, available s md x -> known s' x.
Proof.
  intros W K Em Hep PO PL LD Hf.
  assert (Htr : len (tb_type_ref (m_tables md)) < 2 ^ 64).
  { pose proof (type_refs_counted _ _ _ Em). assert (2 ^ 32 < 2 ^ 64) by reflexivity. lia. }
  destruct (ld_name _ _ _ _ _ _ LD) as (row & n & [_ Hr] & Hn).
  cbn [load_data]. rewrite (bind_ok (lift (read_metadata p data)) _ s md s) by (unfold lift; now rewrite Em).
  assert (ROW : row_at p (tb_assembly (m_tables md)) (handle_of_position TAssembly 0) s = Ok row s).
  { apply row_at_run; cbn [handle_of_position]; [lia|exact Hr]. }
  rewrite (bind_ok _ _ _ _ _ ROW), (string_at_text _ _ _ Hn), (bind_ok (unwrap (Some n)) _ s n s eq_refl).
  rewrite (bind_ok (iter_m _ (tb_assembly_ref (m_tables md))) _ s tt s).
  2:{ pose proof (ld_references _ _ _ _ _ _ LD) as R. induction (tb_assembly_ref (m_tables md)) as [|q l IH]; cbn [iter_m]; [reflexivity|].
      rewrite (bind_ok _ _ s tt s); [apply IH; intros r I; apply R; now right|].
      destruct (R q (or_introl eq_refl)) as (x & Hx & Lx). rewrite (string_at_text _ _ _ Hx).
      rewrite (bind_ok (ok_or (Some x) _) _ s x s eq_refl), (bind_ok get_state _ s s s eq_refl), (loaded_is s x Lx). reflexivity. }
  destruct (method_refs_fwd p md s W K _ (ld_member_refs _ _ _ _ _ _ LD)) as [refs E1].
  destruct (type_refs_fwd p md s W (ld_type_refs _ _ _ _ _ _ LD)) as [trefs E2].
  rewrite (bind_ok _ _ _ _ _ E1), (bind_ok _ _ _ _ _ E2).
  destruct (pres_run_ok _ _ _ _ _ _ _ (load_method_refs_pres p md _ s) W E1) as (_ & _ & _ & Vm).
  destruct (pres_run_ok _ _ _ _ _ _ _ (load_type_refs_pres p md s) W E2) as (_ & _ & _ & Vt).
  destruct (new_assembly_ready p s n (m_user_strings md) _ _ W Vm Vt) as (W2 & N2 & L2).
  set (ai := mkAssembly n [] None (m_user_strings md) [] refs [] trefs) in *.
  set (s2 := set_arena s (c_arena s ++ [Some ai])) in *. set (a0 := List.length (c_arena s)) in *.
  rewrite (bind_ok (new_assembly ai) _ s a0 s2 eq_refl).
  destruct (load_contents_fwd p top pl s md fts ks PO LD f (List.length (c_types s)) a0 Hf (settled ai) Htr Hep s2 W2) as (s3 & E3 & P3); auto.
  - exists ai. exact N2.
  - exists ai. auto.
  - exists s3. split; [|exact P3]. unfold drop_on_error. now rewrite E3.
Qed.

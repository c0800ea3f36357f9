(** Loads that succeed: the loops of the loader, for images that SpecLoad describes. *)
From Coq Require Import NArith String List Bool Lia Arith.
From Coq.Strings Require Import Byte.
From Verif Require Import Base BaseFacts BinaryReader ParseSpec ReaderFacts Attributes Tables TablesProofs Blob BlobProofs Metadata
  Runtime Loader SpecBytes SpecBlob SpecPe Pe SpecMetadata SpecRuntime
  RuntimeInv SpecHistory HistoryProofs InterpInv SpecBody BodyProofs TypeFacts LayoutFacts SpecTypes SpecLoader LoaderFacts LoaderRun MemberFacts SpecLoad LoadFacts.
Import ListNotations.
Open Scope N_scope.

(** ** Plans, type by type *)

Record fits (pl : plan) (nm : tref -> name) (ti : type_info) : Prop := {
  ft_base : forall b, ti_base ti = Some b ->
    (pl_rank pl (nm b) < pl_rank pl (ti_full_name ti))%nat /\ (pl_value pl (nm b) = true -> pl_value pl (ti_full_name ti) = true);
  ft_interface : forall i, In i (ti_interfaces ti) -> nm i <> a_value_type;
  ft_field : forall f, In f (ti_fields ti) -> f_static f = false -> pl_value pl (nm (f_type f)) = true ->
    primitive (nm (f_type f)) \/ (pl_rank pl (nm (f_type f)) < pl_rank pl (ti_full_name ti))%nat;
  ft_weight : ~ primitive (ti_full_name ti) ->
    base_weight pl (option_map nm (ti_base ti)) +
    sum (map (fun f => if f_static f then 0 else slot pl (nm (f_type f))) (ti_fields ti)) <= pl_weight pl (ti_full_name ti);
  ft_short : forall x, In x short_names ->
    ti_full_name ti = qualified (bytes_of_string x) (bytes_of_string "System") -> ti_name ti = bytes_of_string x }.

Lemma planned_fits pl ts : planned pl ts <-> forall ti, In ti ts -> fits pl (name_of ts) ti.
Proof.
  split.
  - intros [A B C D E] ti H. split; eauto.
  - intro H. split; intros ti; intros.
    + eapply ft_base; eauto.
    + eapply ft_interface; eauto.
    + eapply ft_field; eauto.
    + eapply ft_weight; eauto.
    + eapply ft_short; eauto.
Qed.

(** The references of a type. *)
Definition refers (n : nat) (ti : type_info) : Prop :=
  (forall b, ti_base ti = Some b -> (b < n)%nat) /\ (forall i, In i (ti_interfaces ti) -> (i < n)%nat) /\
  (forall f, In f (ti_fields ti) -> (f_type f < n)%nat).
Lemma v_refers n k ti : v_type n k ti -> refers n ti.
Proof.
  intros (_ & B & F & _ & I & _). split; [|split].
  - intros b E. rewrite E in B. exact B.
  - rewrite Forall_forall in I. exact I.
  - rewrite Forall_forall in F. intros f H. apply (F f H).
Qed.

Lemma fits_ext pl (nm nm' : tref -> name) ti n : refers n ti -> (forall t, (t < n)%nat -> nm' t = nm t) -> fits pl nm ti -> fits pl nm' ti.
Proof.
  intros (R1 & R2 & R3) H [A B C D E]. split; auto.
  - intros b X. rewrite H by auto. auto.
  - intros i X. rewrite H by auto. auto.
  - intros f X. rewrite H by auto. auto.
  - intro X. specialize (D X). replace (option_map nm' (ti_base ti)) with (option_map nm (ti_base ti)).
    + rewrite (map_ext_in _ (fun f => if f_static f then 0 else slot pl (nm (f_type f))) (ti_fields ti)); [exact D|].
      intros f Hf. cbn beta. now rewrite H by auto.
    + destruct (ti_base ti); cbn; [|reflexivity]. f_equal. symmetry. apply H. auto.
Qed.

Lemma name_of_app ts l t : (t < List.length ts)%nat -> name_of (ts ++ l) t = name_of ts t.
Proof. intro H. unfold name_of. now rewrite nth_error_app1. Qed.
Lemma name_of_update ts t f u : (forall ti, ti_full_name (f ti) = ti_full_name ti) -> name_of (update ts t f) u = name_of ts u.
Proof.
  intro H. unfold name_of. pose proof (update_names t f ts H u) as E.
  destruct (nth_error (update ts t f) u), (nth_error ts u); cbn in E; try congruence.
Qed.
Lemma planned_app pl p s ti : consistent p s -> planned pl (c_types s) -> fits pl (name_of (c_types s ++ [ti])) ti ->
  planned pl (c_types s ++ [ti]).
Proof.
  intros W P F. apply planned_fits. intros x H. apply in_app_or in H as [H|[<-|[]]]; [|exact F].
  eapply fits_ext with (n := List.length (c_types s)); [| |exact (proj1 (planned_fits _ _) P x H)].
  - pose proof (types_ok _ _ W) as T. rewrite Forall_forall in T. exact (v_refers _ _ _ (T x H)).
  - intros t Ht. now apply name_of_app.
Qed.
Lemma planned_update pl ts t f ti : planned pl ts -> (forall ti, ti_full_name (f ti) = ti_full_name ti) ->
  nth_error ts t = Some ti -> fits pl (name_of ts) (f ti) -> planned pl (update ts t f).
Proof.
  intros P Hf E F. apply planned_fits. intros x H. apply In_nth_error in H as [u H]. rewrite nth_update in H.
  assert (G : fits pl (name_of ts) x).
  { destruct (Nat.eqb t u) eqn:Q.
    - apply Nat.eqb_eq in Q. subst u. rewrite E in H. cbn in H. now injection H as <-.
    - apply (proj1 (planned_fits _ _) P). eapply nth_error_In; eauto. }
  destruct G as [A B C D S].
  assert (N : forall u, name_of (update ts t f) u = name_of ts u) by (intro; now apply name_of_update).
  split; auto.
  - intros b. rewrite N. auto.
  - intros i. rewrite N. auto.
  - intros g. rewrite N. auto.
  - intro X. specialize (D X). replace (option_map (name_of (update ts t f)) (ti_base x)) with (option_map (name_of ts) (ti_base x)).
    + rewrite (map_ext _ (fun g => if f_static g then 0 else slot pl (name_of ts (f_type g)))); [exact D|].
      intros g. cbn beta. now rewrite N.
    + destruct (ti_base x); cbn; [|reflexivity]. now rewrite N.
Qed.

(** ** Array types follow every plan *)

Section Keeping.
  Variables (p : profile) (top : nat) (pl : plan).
  Hypothesis PO : plan_ok top pl.

  Definition keeping {A} (m : M vm A) : Prop := forall s, consistent p s -> planned pl (c_types s) ->
    match m s with Ok _ s' | Err _ s' => consistent p s' /\ planned pl (c_types s') | _ => True end.
  Lemma kp_run {A} (m : M vm A) s a s' : keeping m -> consistent p s -> planned pl (c_types s) -> m s = Ok a s' -> planned pl (c_types s').
  Proof. intros K W P E. specialize (K s W P). rewrite E in K. apply K. Qed.
  Lemma kp_pure {A} (m : M vm A) : pure m -> keeping m.
  Proof. intros H s W P. specialize (H s). destruct (m s); subst; auto. Qed.
  Lemma kp_bind {A B} (m : M vm A) (k : A -> M vm B) : keeping m -> (forall a, keeping (k a)) -> keeping (bind m k).
  Proof.
    intros Hm Hk s W P. unfold bind. specialize (Hm s W P). destruct (m s) as [a s1|e s1|w|w|]; auto.
    destruct Hm as [W1 P1]. exact (Hk a s1 W1 P1).
  Qed.
  Lemma kp_map_err {A} (m : M vm A) e : keeping m -> keeping (map_err m e).
  Proof. intros H s W P. specialize (H s W P). unfold map_err. destruct (m s); auto. Qed.
  Lemma kp_unwrap_result {A} (m : M vm A) : keeping m -> keeping (unwrap_result m).
  Proof. intros H s W P. specialize (H s W P). unfold unwrap_result. destruct (m s); auto. Qed.
  Lemma kp_map_m {A B} (f : A -> M vm B) : (forall x, keeping (f x)) -> forall l, keeping (map_m f l).
  Proof.
    intro H. induction l as [|x l IH]; cbn [map_m]; [apply kp_pure, pure_ret|].
    apply kp_bind; [apply H|intro y]. apply kp_bind; [exact IH|intro ys]. apply kp_pure, pure_ret.
  Qed.

  Ltac kp := repeat first
    [ apply kp_pure; first [apply pure_ret | apply pure_fail | apply pure_panic | apply pure_ub | apply pure_nofuel
        | apply pure_lift | apply pure_with_reader | apply pure_row_at | apply pure_ok_or | apply pure_unwrap | apply pure_ovf
        | apply pure_the_type | apply pure_the_assembly | apply pure_get_type | apply pure_named | apply pure_type_def_or_ref_name ]
    | apply kp_map_err | apply kp_unwrap_result
    | lazymatch goal with |- keeping (bind _ _) => apply kp_bind; [|intro] end ].

  Lemma vector_short n x : In x short_names -> vector_of n <> qualified (bytes_of_string x) (bytes_of_string "System").
  Proof.
    intros H E. apply (f_equal (@rev byte)) in E. unfold vector_of in E. rewrite rev_app_distr in E.
    destruct H as [<-|[<-|[<-|[]]]]; vm_compute in E; discriminate.
  Qed.
  Lemma kp_array_of t : keeping (array_of p t).
  Proof.
    intros s W P. pose proof (array_of_pres p s t W) as Q. unfold array_of, bind, the_type in *.
    destruct (nth_error (c_types s) t) as [e|] eqn:E; [|exact Logic.I]. unfold get_type at 1 in Q. unfold get_type at 1.
    destruct (map_get bytes_eqb (ti_full_name e ++ bytes_of_string "[]") (c_type_map s)) as [v|]; [split; assumption|].
    unfold next_type_id in *. destruct (u_add p 32 (c_next_id s) 1) as [k|]; [|exact Logic.I].
    unfold get_type in *. cbn [c_type_map set_next_id] in *.
    set (o := map_get bytes_eqb (bytes_of_string "System.Array") (c_type_map s)) in *.
    set (a := mkType _ _ _ _ _ _ _ _ _ _ _ _ _) in *. cbn [add_type] in *. destruct Q as (W' & _ & _). split; [exact W'|].
    cbn [c_types set_next_id]. apply (planned_app _ p); [exact W|exact P|].
    assert (Fn : ti_full_name a = vector_of (ti_full_name e)) by reflexivity.
    assert (B : forall b, ti_base a = Some b -> name_of (c_types s ++ [a]) b = an_array_type).
    { intros b Eb. change (ti_base a) with o in Eb. pose proof (map_ok _ _ W (bytes_of_string "System.Array")) as M. fold o in M. rewrite Eb in M.
      destruct M as [(x & Ex & Nx) _]. rewrite name_of_app by exact (nth_lt _ _ _ Ex). rewrite (name_of_at _ _ _ Ex). exact Nx. }
    destruct (po_vectors _ _ PO (ti_full_name e)) as [V1 V2].
    split.
    - intros b Eb. rewrite (B b Eb), Fn. split; [exact V1|]. rewrite (po_array _ _ PO). discriminate.
    - intros i [].
    - intros f [].
    - intros _. rewrite Fn. change (ti_fields a) with (@nil field_info). cbn [map sum fold_right]. rewrite N.add_0_r.
      destruct (ti_base a) as [b|] eqn:Eb; cbn [option_map base_weight]; [|apply N.le_0_l]. rewrite (B b eq_refl). exact V2.
    - intros x Hx Ex. exfalso. rewrite Fn in Ex. exact (vector_short _ _ Hx Ex).
  Qed.
  Variable md : metadata.
  Lemma kp_type_for_element : forall e, keeping (type_for_element p md e).
  Proof. induction e; cbn [type_for_element]; kp; auto using kp_array_of. Qed.
  Lemma kp_read_locals : forall n r, keeping (read_locals p md n r).
  Proof.
    induction n as [|n IH]; intro r; cbn [read_locals]; [kp|]. kp. destruct a as [e r'].
    apply kp_bind; [apply kp_type_for_element|intro t]. apply kp_bind; [apply IH|intro ts]. kp.
  Qed.
  Lemma kp_load_locals tok : keeping (load_locals p md tok).
  Proof.
    unfold load_locals. destruct (_ =? _); [kp|]. kp. destruct a1 as [b r]. destruct (negb _); [kp|].
    kp. destruct a1 as [c r']. apply kp_read_locals.
  Qed.
  Lemma kp_load_body rva : keeping (load_body p md rva).
  Proof.
    unfold load_body. kp. destruct a1 as [b r].
    assert (H2 : keeping (' (code, _) <- with_reader r (read_code p (N.shiftr (N.land b 0xfc) 2)) ;;
        ret (mkBody code 8 [] (has b 0x10) []))). { kp. destruct a1. kp. }
    assert (H3 : keeping (' (_, r) <- with_reader r (advance p 1) ;;
        ' (max_stack, r) <- with_reader r (rd p 2 bad_body) ;;
        ' (code_size, r) <- with_reader r (rd p 4 bad_body) ;;
        ' (locals_token, r) <- with_reader r (rd p 4 bad_body) ;;
        locals <- load_locals p md locals_token ;;
        ' (code, r) <- with_reader r (read_code p code_size) ;;
        clauses <- (if has b 8 then read_section p md r else ret []) ;;
        ret (mkBody code max_stack locals (has b 0x10) clauses))).
    { do 4 (apply kp_bind; [kp|intros [? ?]]). apply kp_bind; [apply kp_load_locals|intro ls].
      apply kp_bind; [kp|intros [? ?]]. apply kp_bind; [|intro; kp].
      destruct (has b 8); [apply kp_pure, pure_read_section|kp]. }
    destruct (N.land b 3) as [|[[?|?|]|[?|?|]|]]; first [exact H2|exact H3|kp].
  Qed.
End Keeping.

(** ** Members *)

Lemma row_of_at {A} p (rows : list A) k r (s : vm) : row_of rows k r -> row_at p rows k s = Ok r s.
Proof. intros [H E]. now apply row_at_run. Qed.
Lemma text_at {S} md h n (s : S) : heap_text md h n -> unwrap (string_at md h) s = Ok n s.
Proof. intro H. now rewrite (string_at_text _ _ _ H). Qed.
Lemma signature_fwd {A} p md h bs (m : M reader A) x (s : vm) : slice_ok (m_blob md) -> heap_blob md h bs -> parses m bs x ->
  signature_at p md h m s = Ok x s.
Proof.
  intros Hb Hh P. unfold signature_at, bind, lift. rewrite (heap_blob_reader p md h bs Hb Hh).
  unfold on_reader, here. cbn [app]. rewrite len_nil.
  assert (So : slice_ok ([] ++ bs ++ [])).
  { cbn [app]. rewrite app_nil_r. unfold slice_ok in *. destruct Hh as [(pre & post & Eb & _) _]. rewrite Eb in Hb.
    revert Hb. slen. lia. }
  specialize (P [] [] So). cbn [app] in P. rewrite app_nil_r, len_nil in P. now rewrite P.
Qed.
Lemma sum_app l l' : sum (l ++ l') = sum l + sum l'.
Proof. induction l as [|x l IH]; cbn [app sum fold_right]; [reflexivity|]. fold (sum (l ++ l')) (sum l). rewrite IH. lia. Qed.
Lemma sum_cons x l : sum (x :: l) = x + sum l.
Proof. reflexivity. Qed.

Section Forward.
  Variables (p : profile) (top : nat) (pl : plan) (s0 : vm) (md : metadata).
  Hypothesis PO : plan_ok top pl.
  Hypothesis Hmd : addressable md.

  (** Halfway: everything that can be named is there, and [r] more types fit. *)
  Record mid (r : N) (s : vm) : Prop := {
    md_consistent : consistent p s;
    md_planned : planned pl (c_types s);
    md_known : forall n, available s0 md n -> known s n;
    md_room : room p s r }.

  Lemma room_less k r s : k <= r -> room p s r -> room p s k.
  Proof. intros H R X. specialize (R X). lia. Qed.
  Lemma mid_grows k r s s' : mid (k + r) s -> grows k s s' -> consistent p s' -> planned pl (c_types s') -> mid r s'.
  Proof.
    intros [W P K R] G W' P'. split; auto.
    - intros n A. eapply known_grows; eauto.
    - intro X. specialize (R X). pose proof (gr_count _ _ _ G). lia.
  Qed.
  Lemma mid_less k r s : k <= r -> mid r s -> mid k s.
  Proof. intros H [W P K R]. split; auto. eapply room_less; eauto. Qed.

  Lemma usable_known s t : (forall n, available s0 md n -> known s n) -> usable s0 md t -> element_known md s t.
  Proof.
    intros K [_ (n & Hn & An)]. induction t; cbn [element_known innermost] in *; auto;
      intros m Hm; rewrite (type_name_det _ _ _ _ Hm Hn); auto.
  Qed.
  Lemma usable_named t : usable s0 md t -> exists n, type_name md t n.
  Proof. intros [_ (n & Hn & _)]. induction t; cbn [innermost] in *; eauto. destruct (IHt Hn) as [m Hm]. eexists. constructor. exact Hm. Qed.
  Lemma usable_names ts : Forall (usable s0 md) ts -> exists ns, Forall2 (type_name md) ts ns.
  Proof.
    induction 1 as [|t ts H F [ns Hns]]; [exists []; constructor|]. destruct (usable_named t H) as [n Hn].
    exists (n :: ns). constructor; assumption.
  Qed.

  Lemma type_fwd t n r s : usable s0 md t -> type_name md t n -> mid (vectors t + r) s ->
    exists u s', type_for_element p md (api_type t) s = Ok u s' /\ mid r s' /\ grows (vectors t) s s' /\ latest (c_types s') n u.
  Proof.
    intros U Hn M. pose proof M as [W P K R].
    destruct (type_run p md t n s W Hn (usable_known s t K U)) as (u & s' & E & W' & G & L).
    { eapply room_less; [|exact R]. lia. }
    exists u, s'. split; [exact E|]. split; [|split; [exact G|exact L]].
    eapply mid_grows; eauto. exact (kp_run p pl _ _ _ _ (kp_type_for_element p top pl PO md _) W P E).
  Qed.

  Lemma load_field_fwd t row ty n k off r s : row_of (tb_field (m_tables md)) k row -> field_loads s0 md row (ty, n) ->
    mid (vectors ty + r) s ->
    exists f s', load_field p md t k off s = Ok f s' /\ mid r s' /\ grows (vectors ty) s s' /\
      f_static f = fa_is_static (fd_attributes row) /\ is_named (c_types s') (f_type f) n.
  Proof.
    intros Hr ((x & Hx) & Hb & U & Hn) M. cbn [fst snd] in *.
    destruct (type_fwd ty n r s U Hn M) as (u & s' & E & M' & G & L).
    assert (F : faithful ty) by (eapply named_faithful; [apply U|exact Hn]).
    exists (mkField x u t (fa_is_static (fd_attributes row)) off), s'.
    split; [|split; [exact M'|split; [exact G|split; [reflexivity|exact (proj1 L)]]]].
    - unfold load_field. rewrite (bind_ok _ _ _ _ _ (row_of_at p _ _ _ s Hr)), (bind_ok _ _ _ _ _ (text_at md _ _ s Hx)).
      rewrite (bind_ok _ _ _ _ _ (signature_fwd p md _ _ _ _ s (proj1 Hmd) Hb (parses_field_sig p ty F))).
      rewrite (bind_ok _ _ _ _ _ E). reflexivity.
  Qed.

  Lemma load_body_fwd rva k r s : body_loads s0 md rva k -> mid (k + r) s ->
    exists b s', load_body p md rva s = Ok b s' /\ mid r s' /\ grows k s s'.
  Proof.
    intros B M. pose proof M as [W P K R]. destruct Hmd as (H1 & H2 & H3).
    assert (LK : forall ls, Forall (usable s0 md) ls -> Forall type_ok ls /\ Forall (element_known md s) ls).
    { intros ls F. split; eapply Forall_impl; try exact F; intros t U; [apply U|now apply usable_known]. }
    destruct B as [code L I|init mx tok code ls L1 L2 L3 I Lo U|init mx tok code ls more es f bs L1 L2 L3 I Lo U Fi Es Ca].
    - destruct (tiny_run p md rva code s H3 H2 L I) as [i E]. exists (mkBody code 8 [] i []), s.
      split; [exact E|]. split; [exact M|apply grows_refl].
    - destruct (usable_names _ U) as [ns Hns]. destruct (LK _ U) as [T1 T2].
      rewrite <- (app_nil_r (enc_fat init false mx tok code)) in I.
      destruct (fat_run p md rva init false mx tok code [] ls ns s W H3 H2 H1 L1 L2 L3 I Lo Hns T1 T2) as (ts & s' & W' & G & _ & post & _ & E).
      { eapply room_less; [|exact R]. lia. }
      specialize (E [] eq_refl). eexists _, s'. split; [exact E|]. split; [|exact G].
      eapply mid_grows; eauto. exact (kp_run p pl _ _ _ _ (kp_load_body p top pl PO md _) W P E).
    - destruct (usable_names _ U) as [ns Hns]. destruct (LK _ U) as [T1 T2].
      destruct (fat_run p md rva init true mx tok code (f ++ bs) ls ns s W H3 H2 H1 L1 L2 L3 I Lo Hns T1 T2) as (ts & s' & W' & G & _ & post & So & E).
      { eapply room_less; [|exact R]. lia. }
      assert (CK : Forall (catch_known md s') es).
      { apply Forall_forall. intros e He Hc. destruct (Ca e He Hc) as (n & C1 & C2). exists n. split; [exact C1|].
        eapply known_grows; [apply K; exact C2|exact G]. }
      destruct (read_section_run p md s' more es bs f (enc_fat init true mx tok code) post W' Es Fi CK) as (cs & Ecs & _).
      { rewrite <- !app_assoc in So. exact So. }
      rewrite <- app_assoc in E. specialize (E cs Ecs). eexists _, s'. split; [exact E|]. split; [|exact G].
      eapply mid_grows; eauto. exact (kp_run p pl _ _ _ _ (kp_load_body p top pl PO md _) W P E).
  Qed.

  Lemma param_names_fwd : forall tys ns r s, Forall (usable s0 md) tys -> Forall2 (type_name md) tys ns ->
    mid (sum (map vectors tys) + r) s ->
    exists s', param_type_names p md (map api_type tys) s = Ok ns s' /\ mid r s' /\ grows (sum (map vectors tys)) s s'.
  Proof.
    unfold param_type_names. induction tys as [|ty tys IH]; intros ns r s U F M; inversion F as [|? n ? ns' Hn F']; subst; cbn [map map_m].
    - exists s. split; [reflexivity|]. split; [exact M|apply grows_refl].
    - inversion U as [|? ? U1 U2]; subst. cbn [map] in M. rewrite sum_cons, <- N.add_assoc in M.
      destruct (type_fwd ty n _ s U1 Hn M) as (u & s1 & E1 & M1 & G1 & (ti & Et & Nt) & _).
      destruct (IH ns' r s1 U2 F' M1) as (s2 & E2 & M2 & G2).
      exists s2. split; [|split; [exact M2|rewrite sum_cons; eapply grows_trans; eauto]].
      assert (E1' : (t <- unwrap_result (type_for_element p md (api_type ty)) ;; ti <- the_type t ;; ret (ti_full_name ti)) s = Ok n s1).
      { unfold bind at 1, unwrap_result. rewrite E1. unfold bind, the_type. rewrite Et. now rewrite Nt. }
      rewrite (bind_ok _ _ _ _ _ E1'), (bind_ok _ _ _ _ _ E2). reflexivity.
  Qed.

  Lemma load_params_fwd : forall tys h r s, Forall (usable s0 md) tys ->
    (forall i, (i < List.length tys)%nat -> exists row y, row_of (tb_param (m_tables md)) (h + N.of_nat i) row /\ heap_text md (pm_name row) y) ->
    mid (sum (map vectors tys) + r) s ->
    exists ps s', load_params p md h (map api_type tys) s = Ok ps s' /\ mid r s' /\ grows (sum (map vectors tys)) s s'.
  Proof.
    induction tys as [|ty tys IH]; intros h r s U H M; cbn [map load_params].
    - exists [], s. split; [reflexivity|]. split; [exact M|apply grows_refl].
    - inversion U as [|? ? U1 U2]; subst. cbn [map] in M. rewrite sum_cons, <- N.add_assoc in M.
      destruct (H 0%nat) as (row & y & Hr & Hy); [cbn; lia|]. rewrite N.add_0_r in Hr.
      destruct (usable_named ty U1) as [n Hn]. destruct (type_fwd ty n _ s U1 Hn M) as (u & s1 & E1 & M1 & G1 & _).
      destruct (IH (h + 1) r s1 U2) as (ps & s2 & E2 & M2 & G2); [|exact M1|].
      { intros i Hi. destruct (H (S i)) as (r' & z & Hr' & Hz); [cbn; lia|]. exists r', z. split; [|exact Hz].
        replace (h + 1 + N.of_nat i) with (h + N.of_nat (S i)) by lia. exact Hr'. }
      eexists _, s2. split; [|split; [exact M2|rewrite sum_cons; eapply grows_trans; eauto]].
      rewrite (bind_ok _ _ _ _ _ (row_of_at p _ _ _ s Hr)), (bind_ok _ _ _ _ _ (text_at md _ _ s Hy)).
      rewrite (bind_ok _ _ _ _ _ E1), (bind_ok _ _ _ _ _ E2). reflexivity.
  Qed.

  Lemma built_in_fwd i fn x pns rti : built_in i fn x pns -> ti_full_name rti = bytes_of_string (result_of i) ->
    (forall y, In y short_names -> ti_full_name rti = qualified (bytes_of_string y) (bytes_of_string "System") -> ti_name rti = bytes_of_string y) ->
    forall dti, ti_full_name dti = fn -> internal_method (internal_call_name x dti rti pns) = Some i.
  Proof.
    intros B R Sh dti D. unfold internal_call_name. rewrite D. destruct i; destruct B as (-> & -> & ->); cbn [result_of] in R.
    - rewrite (Sh "Void"%string); [reflexivity|now left|exact R].
    - rewrite (Sh "Char"%string); [reflexivity|right; now left|exact R].
    - rewrite (Sh "Int32"%string); [reflexivity|right; right; now left|exact R].
  Qed.

  Lemma load_method_fwd t fn row j k r s : row_of (tb_method_def (m_tables md)) j row -> method_loads s0 md fn row k ->
    is_named (c_types s) t fn -> mid (k + r) s ->
    exists m s', load_method p md t j s = Ok m s' /\ mid r s' /\ grows k s s'.
  Proof.
    intros Hr (x & sg & b & Hx & Ho & He & Hb & Ur & Ua & Hp & C & ->) Nt M.
    destruct (usable_named _ Ur) as [rn Hrn]. destruct (usable_names _ Ua) as [ans Hans].
    assert (SIG : signature_at p md (me_signature row) (read_method_signature p) s = Ok (api_method_sig sg) s).
    { eapply signature_fwd; [apply Hmd|exact Hb|]. pose proof Ho as (O1 & O2 & O3 & O4 & O5).
      assert (F1 : faithful (ms_result sg)) by (eapply named_faithful; [apply Ur|exact Hrn]).
      assert (F2 : Forall faithful (ms_args sg)).
      { apply Forall_forall. intros u Hu. rewrite Forall_forall in Ua. destruct (usable_named u (Ua u Hu)) as [un Hun].
        eapply named_faithful; [apply (Ua u Hu)|exact Hun]. }
      apply parses_method_sig; auto. }
    rewrite <- !N.add_assoc in M.
    assert (IMPL : exists im s1, (if mi_internal_call (me_impl_attributes row) then
             names <- param_type_names p md (sg_params (api_method_sig sg)) ;;
             rt <- type_for_element p md (sg_return_type (api_method_sig sg)) ;;
             rti <- the_type rt ;;
             dti <- the_type t ;;
             im <- ok_or (internal_method (internal_call_name x dti rti names))
                     "No internal method with signature" ;;
             ret (IInternal im)
           else if ma_pinvoke_impl (me_attributes row) then
             panic "not implemented: PInvoke not yet supported"
           else if negb (ma_is_abstract (me_attributes row)) then
             b <- load_body p md (me_rva row) ;; ret (IIL b)
           else ret INone) s = Ok im s1 /\ mid (vectors (ms_result sg) + (sum (map vectors (ms_args sg)) + r)) s1 /\ grows b s s1).
    { destruct C as [i pns Ci Hpn Bi Hres|k Ci Cp Ca Bl|Ci Cp Ca]; rewrite Ci.
      - cbn [sg_params sg_return_type api_method_sig]. rewrite He, app_nil_r.
        rewrite <- !N.add_assoc in M. destruct (param_names_fwd _ _ _ s Ua Hpn M) as (s1 & E1 & M1 & G1).
        destruct (type_fwd _ _ _ s1 Ur Hres M1) as (u & s2 & E2 & M2 & G2 & (rti & Eu & Nu) & _).
        assert (Nt2 : is_named (c_types s2) t fn).
        { eapply is_named_appends; [exact (gr_appends _ _ _ G2)|]. eapply is_named_appends; [exact (gr_appends _ _ _ G1)|exact Nt]. }
        destruct Nt2 as (dti & Ed & Nd).
        exists (IInternal i), s2. split; [|split; [exact M2|eapply grows_trans; eauto]].
        rewrite (bind_ok _ _ _ _ _ E1), (bind_ok _ _ _ _ _ E2). unfold bind at 1, the_type at 1. rewrite Eu.
        unfold bind at 1, the_type at 1. rewrite Ed. rewrite (built_in_fwd i fn x pns rti Bi Nu); [reflexivity| |exact Nd].
        intros y Hy. apply (pn_short _ _ (md_planned _ _ M2)); [eapply nth_error_In; eauto|exact Hy].
      - rewrite Cp, Ca. cbn [negb]. destruct (load_body_fwd _ _ _ s Bl M) as (bd & s1 & E & M1 & G).
        exists (IIL bd), s1. split; [now rewrite (bind_ok _ _ _ _ _ E)|]. split; [exact M1|exact G].
      - rewrite Cp, Ca. cbn [negb]. exists INone, s. split; [reflexivity|]. split; [exact M|apply grows_refl]. }
    destruct IMPL as (im & s1 & E1 & M1 & G1).
    destruct (type_fwd _ _ _ s1 Ur Hrn M1) as (u & s2 & E2 & M2 & G2 & _).
    destruct (load_params_fwd (ms_args sg) (me_param_list row) r s2 Ua Hp M2) as (ps & s3 & E3 & M3 & G3).
    eexists _, s3. split; [|split; [exact M3|]].
    - unfold load_method. rewrite (bind_ok _ _ _ _ _ (row_of_at p _ _ _ s Hr)), (bind_ok _ _ _ _ _ (text_at md _ _ s Hx)).
      rewrite (bind_ok _ _ _ _ _ SIG), (bind_ok _ _ _ _ _ E1). cbn [sg_params sg_return_type api_method_sig].
      rewrite (bind_ok _ _ _ _ _ E2). rewrite He, app_nil_r, (bind_ok _ _ _ _ _ E3). reflexivity.
    - eapply grows_trans; [eapply grows_trans|]; eauto.
  Qed.
End Forward.

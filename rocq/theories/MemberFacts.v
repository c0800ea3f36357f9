(** Invariants of single types over histories, and the members that are found by name. *)
From Coq Require Import NArith String List Bool Lia Arith.
From Coq.Strings Require Import Byte.
From Verif Require Import Base BaseFacts Attributes Tables Blob Metadata Runtime Loader SpecRuntime RuntimeInv SpecHistory
  HistoryProofs InterpInv LayoutFacts SpecLoader.
Import ListNotations.
Open Scope N_scope.

Section Each.
  Variable P : tref -> type_info -> Prop.
  Hypothesis P_blank : forall t ti, blank ti -> P t ti.
  Hypothesis P_base : forall t ti b, P t ti -> P t (with_base b ti).
  Hypothesis P_kind : forall t ti k, P t ti -> P t (with_kind k ti).
  Hypothesis P_interface : forall t ti i, P t ti -> P t (with_interface i ti).
  Hypothesis P_field : forall t ti f, f_declaring f = t -> P t ti -> P t (with_field f ti).
  Hypothesis P_method : forall t ti m, mt_declaring m = t -> P t ti -> P t (with_method m ti).

  Definition each (s : vm) : Prop := forall t ti, nth_error (c_types s) t = Some ti -> P t ti.

  Lemma sprouts_each s s' : sprouts s s' -> each s -> each s'.
  Proof.
    intros (l & E & F) H t ti X. rewrite E in X. destruct (Nat.lt_ge_cases t (List.length (c_types s))) as [L|L].
    - rewrite nth_error_app1 in X by exact L. eauto.
    - rewrite nth_error_app2 in X by exact L. apply P_blank. apply nth_error_In in X. rewrite Forall_forall in F. auto.
  Qed.
  Lemma after_sprouts {A} (m : M vm A) s : sprouting m -> each s -> after each (m s).
  Proof. intros S H. specialize (S s). unfold after. destruct (m s); auto; eapply sprouts_each; eauto. Qed.
  Lemma modify_each t f s : (forall ti, P t ti -> P t (f ti)) -> each s -> after each (modify_type t f s).
  Proof.
    intros Hf H u ti X. cbn [c_types set_types] in X. apply nth_update_inv in X as (y & Ey & ->).
    destruct (Nat.eqb_spec t u) as [->|N]; eauto.
  Qed.
  Lemma assembly_each a f s : each s -> after each (modify_assembly a f s).
  Proof. intro H. exact H. Qed.

  Variables (p : profile) (md : metadata).

  Lemma resolve_base_each t i s : each s -> after each (resolve_base p md t i s).
  Proof.
    intro H. unfold resolve_base. apply after_pure; [apply pure_row_at|exact H|intros d _].
    assert (K : after each ((o <- type_def_or_ref_name p md (td_extends d) ;;
      b <- match o with Some n => get_type n | None => ret None end ;;
      b <- ok_or b "Unable to find base type" ;; modify_type t (with_base (Some b))) s)).
    { apply after_pure; [apply pure_type_def_or_ref_name|exact H|intros o _].
      apply after_pure; [destruct o; [apply pure_get_type|apply pure_ret]|exact H|intros b _].
      apply after_pure; [apply pure_ok_or|exact H|intros x _]. now apply modify_each; auto. }
    destruct (ref_table (td_extends d)); try exact K. destruct (ref_index (td_extends d)); [exact H|exact K].
  Qed.
  Lemma resolve_kind_each t i s : each s -> after each (resolve_kind p md t i s).
  Proof.
    intro H. unfold resolve_kind. apply after_pure; [apply pure_row_at|exact H|intros d _].
    apply after_pure; [apply pure_the_type|exact H|intros ti _].
    apply after_pure; [|exact H|intros k _; apply modify_each; auto].
    destruct (ta_semantics _); [|apply pure_ret]. destruct (ti_base ti); [|apply pure_ret].
    apply pure_bind; [apply pure_the_type|intro; apply pure_ret].
  Qed.
  Lemma load_field_declares t i o s f s' : load_field p md t i o s = Ok f s' -> f_declaring f = t.
  Proof.
    unfold load_field. intro E. do 4 (apply bind_inv_ok in E as (? & ? & _ & E)). injection E as <- _. reflexivity.
  Qed.
  Lemma load_method_declares t i s m s' : load_method p md t i s = Ok m s' -> mt_declaring m = t.
  Proof.
    unfold load_method. intro E. do 6 (apply bind_inv_ok in E as (? & ? & _ & E)). injection E as <- _. reflexivity.
  Qed.
  Lemma load_fields_each fuel t : forall n i off s, each s -> after each (load_fields fuel p md t n i off s).
  Proof.
    induction n as [|n IH]; intros i off s H; cbn [load_fields]; [exact H|].
    apply after_bind with (P := each); [apply after_sprouts; [apply sp_load_field|exact H]|auto|].
    intros f s1 E1 H1. apply load_field_declares in E1.
    apply after_bind with (P := each); [apply modify_each; auto|auto|]. intros [] s2 _ H2.
    apply after_pure; [apply pure_the_type|exact H2|intros ti _].
    apply after_bind with (P := each); [apply assembly_each; exact H2|auto|]. intros [] s3 _ H3.
    apply after_pure; [apply pure_type_size|exact H3|intros sz _].
    apply after_pure; [apply pure_ovf|exact H3|intros o _]. now apply IH.
  Qed.
  Lemma resolve_fields_each fuel t i s : each s -> after each (resolve_fields fuel p md t i s).
  Proof.
    intro H. unfold resolve_fields.
    apply after_pure; [apply pure_row_at|exact H|intros d _].
    apply after_pure; [apply pure_run_length|exact H|intros c _].
    apply after_pure; [apply pure_reserve|exact H|intros [] _].
    apply after_pure; [apply pure_ovf|exact H|intros stop _].
    apply after_pure; [apply pure_the_type|exact H|intros ti _].
    apply after_pure; [destruct (ti_base ti); [apply pure_type_size|apply pure_ret]|exact H|intros off _].
    apply after_pure; [apply pure_the_assembly|exact H|intros ai _]. now apply load_fields_each.
  Qed.
  Lemma resolve_methods_each t i s : each s -> after each (resolve_methods p md t i s).
  Proof.
    intro H. unfold resolve_methods.
    apply after_pure; [apply pure_row_at|exact H|intros d _].
    apply after_pure; [apply pure_run_length|exact H|intros c _].
    apply after_pure; [apply pure_reserve|exact H|intros [] _].
    apply after_pure; [apply pure_ovf|exact H|intros stop _].
    generalize (N.to_nat (stop - td_method_list d)). intro cnt. revert s H. generalize (td_method_list d).
    induction cnt as [|k IH]; intros j s H; cbn [range_m]; [exact H|].
    apply after_bind with (P := each); auto.
    apply after_bind with (P := each); auto; [apply after_sprouts; [apply sp_load_method|exact H]|].
    intros m s1 E1 H1. apply load_method_declares in E1. apply modify_each; auto.
  Qed.
  Lemma resolve_each fuel t i s : each s -> after each (resolve fuel p md t i s).
  Proof.
    intro H. unfold resolve.
    apply after_bind with (P := each); [now apply resolve_base_each|auto|]. intros [] s1 _ H1.
    apply after_bind with (P := each); [now apply resolve_kind_each|auto|]. intros [] s2 _ H2.
    apply after_bind with (P := each); [now apply resolve_fields_each|auto|]. intros [] s3 _ H3.
    now apply resolve_methods_each.
  Qed.
  Lemma resolve_types_each fuel : forall ts i s, each s -> after each (resolve_types fuel p md ts i s).
  Proof.
    induction ts as [|t ts IH]; intros i s H; cbn [resolve_types]; [exact H|].
    apply after_bind with (P := each); [now apply resolve_each|auto|]. intros [] s1 _ H1. now apply IH.
  Qed.
  Lemma load_interface_impl_each ii s : each s -> after each (load_interface_impl p md ii s).
  Proof.
    intro H. unfold load_interface_impl.
    assert (FN : forall x y, pure (full_name_at md x y)) by (intros; unfold full_name_at; pur).
    apply after_pure; [apply pure_row_at|exact H|intros d _].
    apply after_pure; [apply FN|exact H|intros fn _].
    apply after_pure; [apply pure_get_type|exact H|intros o _].
    apply after_pure; [apply pure_unwrap|exact H|intros t _].
    apply after_pure; [|exact H|intros ifn _].
    { destruct (ref_table _); try apply pure_panic; (apply pure_bind; [apply pure_row_at|intro; apply FN]). }
    apply after_pure; [apply pure_get_type|exact H|intros o2 _].
    apply after_pure; [apply pure_unwrap|exact H|intros i _]. apply modify_each; auto.
  Qed.
  Lemma load_contents_each fuel a s : each s -> after each (load_contents fuel p md a s).
  Proof.
    intros H. unfold load_contents.
    apply after_bind with (P := each); [apply after_sprouts; [apply sp_load_types|exact H]|auto|]. intros ts s1 _ H1.
    apply after_bind with (P := each); [now apply resolve_types_each|auto|]. intros [] s2 _ H2.
    apply after_bind with (P := each); [|auto|].
    { revert s2 H2. induction (tb_interface_impl (m_tables md)) as [|ii l IH]; intros s2 H2; cbn [iter_m]; [exact H2|].
      apply after_bind with (P := each); [now apply load_interface_impl_each|auto|]. intros [] s3 _ H3. now apply IH. }
    intros [] s3 _ H3.
    apply after_bind with (P := each); [apply assembly_each, H3|auto|]. intros [] s4 _ H4.
    apply after_pure; [|exact H4|intros defs _].
    { clear. induction ts as [|x l IH]; cbn [map_m]; [apply pure_ret|].
      apply pure_bind; [apply pure_bind; [apply pure_the_type|intro; apply pure_ret]|intro].
      apply pure_bind; [exact IH|intro; apply pure_ret]. }
    apply after_bind with (P := each); [apply assembly_each, H4|auto|]. intros [] s5 _ H5.
    apply after_bind with (P := each); [|auto|intros [] s6 _ H6; exact H6].
    destruct (m_entry_point md) as [ep|]; [|exact H5].
    apply after_pure; [apply pure_resolve_method|exact H5|intros o _].
    apply after_pure; [apply pure_ok_or|exact H5|intros x _]. exact H5.
  Qed.
End Each.

Lemma pure_load_method_refs p md : forall rows, pure (load_method_refs p md rows).
Proof.
  assert (FN : forall x y, pure (full_name_at md x y)) by (intros; unfold full_name_at; pur).
  induction rows as [|mr rows IHr]; cbn [load_method_refs]; [apply pure_ret|]. destruct (ref_table _); auto.
  apply pure_bind; [apply pure_row_at|intro]. apply pure_bind; [apply FN|intro]. apply pure_bind; [apply pure_get_type|intro].
  apply pure_bind; [apply pure_ok_or|intro]. apply pure_bind; [apply pure_ok_or|intro].
  apply pure_bind; [unfold get_method; apply pure_bind; [apply pure_the_type|intro; apply pure_ret]|intro].
  apply pure_bind; [apply pure_ok_or|intro]. apply pure_bind; [exact IHr|intro]. apply pure_ret.
Qed.
Lemma pure_load_type_refs p md : pure (load_type_refs p md).
Proof.
  assert (FN : forall x y, pure (full_name_at md x y)) by (intros; unfold full_name_at; pur).
  unfold load_type_refs. induction (tb_type_ref (m_tables md)) as [|tr l IHl]; cbn [map_m]; [apply pure_ret|].
  apply pure_bind; [apply pure_bind; [apply FN|intro]; apply pure_bind; [apply pure_get_type|intro; apply pure_ok_or]|intro].
  apply pure_bind; [exact IHl|intro; apply pure_ret].
Qed.

Section Histories.
  Variable P : tref -> type_info -> Prop.
  Hypothesis P_blank : forall t ti, blank ti -> P t ti.
  Hypothesis P_base : forall t ti b, P t ti -> P t (with_base b ti).
  Hypothesis P_kind : forall t ti k, P t ti -> P t (with_kind k ti).
  Hypothesis P_interface : forall t ti i, P t ti -> P t (with_interface i ti).
  Hypothesis P_field : forall t ti f, f_declaring f = t -> P t ti -> P t (with_field f ti).
  Hypothesis P_method : forall t ti m, mt_declaring m = t -> P t ti -> P t (with_method m ti).
  Variables (p : profile) (fs : file_system).

  Lemma load_data_each : forall fuel data s, each P s -> after (each P) (load_data fuel p fs data s).
  Proof.
    induction fuel as [|fuel IH]; intros data s H; cbn [load_data]; [exact Logic.I|].
    apply after_pure; [apply pure_lift|exact H|intros md _].
    apply after_pure; [apply pure_row_at|exact H|intros row _].
    apply after_pure; [apply pure_unwrap|exact H|intros n _].
    apply after_bind with (P := each P); [|auto|].
    { revert s H. induction (tb_assembly_ref (m_tables md)) as [|r l IHl]; intros s H; cbn [iter_m]; [exact H|].
      apply after_bind with (P := each P); [|auto|intros [] s1 _ H1; now apply IHl].
      apply after_pure; [apply pure_ok_or|exact H|intros rn _]. unfold bind at 1. unfold get_state.
      destruct (loaded _ _ _); [exact H|]. apply after_pure; [apply pure_ok_or|exact H|intros path _].
      destruct (fs _ _) as [| |d]; try exact H.
      apply after_bind with (P := each P); [now apply IH|auto|intros x y _ Hy; exact Hy]. }
    intros [] s1 _ H1.
    apply after_pure; [apply pure_load_method_refs|exact H1|intros ms _].
    apply after_pure; [apply pure_load_type_refs|exact H1|intros ts _].
    apply after_bind with (P := each P); [exact H1|auto|]. intros a s2 _ H2.
    pose proof (load_contents_each P P_blank P_base P_kind P_interface P_field P_method p md fuel a s2 H2) as R.
    unfold drop_on_error, after in *. destruct (load_contents fuel p md a s2); auto.
  Qed.
  Lemma load_path_each fuel path s : each P s -> after (each P) (load_path fuel p fs path s).
  Proof. intros H. unfold load_path. destruct (fs _ _); try exact H. now apply load_data_each. Qed.
  Lemma load_assembly_each fuel n s : each P s -> after (each P) (load_assembly fuel p fs n s).
  Proof.
    intros H. unfold load_assembly, bind, get_state. destruct (resolve_assembly_name _ _ _); cbn [ok_or]; [|exact H].
    unfold ret. now apply load_path_each.
  Qed.
  Lemma event_each s s' : event p fs s s' -> each P s -> each P s'.
  Proof.
    intros E H. destruct E as [fuel data a s s' E|fuel data a s s' E|fuel d f a s s' E|fuel d f a s s' E|fuel n a s s' E|fuel n a s s' E|t u s s' E|fuel m params r s s' E].
    - exact (after_ok _ _ _ _ (load_data_each _ _ _ H) E).
    - exact (after_err _ _ _ _ (load_data_each _ _ _ H) E).
    - exact (after_ok _ _ _ _ (load_path_each _ _ _ H) E).
    - exact (after_err _ _ _ _ (load_path_each _ _ _ H) E).
    - exact (after_ok _ _ _ _ (load_assembly_each _ _ _ H) E).
    - exact (after_err _ _ _ _ (load_assembly_each _ _ _ H) E).
    - pose proof (sp_array_of p t s) as Q. rewrite E in Q. eapply sprouts_each; eauto.
    - apply execute_sprouts in E. eapply sprouts_each; eauto.
  Qed.
  Lemma later_each s s' : later p fs s s' -> each P s -> each P s'.
  Proof. induction 1 as [|s s1 s2 L IH E]; intros H; [exact H|]. eapply event_each; eauto. Qed.
  Lemma new_runtime_each fuel paths rt con s : new_runtime fuel p fs paths rt con = Ok tt s -> each P s.
  Proof.
    unfold new_runtime. intro H.
    assert (H0 : each P (empty_vm paths)). { intros t ti E. destruct t; discriminate. }
    apply bind_inv_ok in H as (a1 & s1 & H1 & H). pose proof (after_ok _ _ _ _ (load_data_each _ _ _ H0) H1) as L1.
    apply bind_inv_ok in H as (a2 & s2 & H2 & H). pose proof (after_ok _ _ _ _ (load_data_each _ _ _ L1) H2) as L2.
    do 11 (let t := fresh "t" in let s' := fresh "s'" in let Ht := fresh "Ht" in
      apply bind_inv_ok in H as (t & s' & Ht & H);
      lazymatch type of Ht with named ?x ?s0 = _ => pose proof (pure_named x s0) as Q; rewrite Ht in Q; subst s'; clear Ht end).
    cbn in H. injection H as <-. exact L2.
  Qed.
  Lemma history_each paths s : history p fs paths s -> each P s.
  Proof. intros (fuel & rt & con & s0 & H & L). eapply later_each; [exact L|]. eapply new_runtime_each; eauto. Qed.
End Histories.

(** ** Members by name *)

Lemma last_called_none {A} (nm : A -> name) n : last_called nm n [] None.
Proof. intros y []. Qed.
Lemma last_called_snoc {A} (nm : A -> name) n (l : list A) o x : last_called nm n l o ->
  last_called nm n (l ++ [x]) (if bytes_eqb (nm x) n then Some x else o).
Proof.
  intro H. destruct (bytes_eqb (nm x) n) eqn:E.
  - apply bytes_eqb_spec in E. exists l, []. split; [reflexivity|]. split; [exact E|]. intros y [].
  - assert (N : nm x <> n) by (intro X; apply bytes_eqb_spec in X; congruence). destruct o as [y|]; cbn in *.
    + destruct H as (l1 & l2 & -> & Hn & Hl). exists l1, (l2 ++ [x]). rewrite <- app_assoc. split; [reflexivity|]. split; [exact Hn|].
      intros z Hz. apply in_app_or in Hz as [Hz|[<-|[]]]; auto.
    + intros z Hz. apply in_app_or in Hz as [Hz|[<-|[]]]; auto.
Qed.

(** A type that knows its members by name. *)
Record knows (t : tref) (ti : type_info) : Prop := {
  kn_fields : forall f, In f (ti_fields ti) -> f_declaring f = t;
  kn_methods : forall m, In m (ti_methods ti) -> mt_declaring m = t;
  kn_field : forall n, last_called f_name n (ti_fields ti) (map_get bytes_eqb n (ti_field_map ti));
  kn_method : forall n, last_called mt_name n (ti_methods ti) (map_get bytes_eqb n (ti_method_map ti)) }.

Lemma get_put {V} n k (v : V) m : map_get bytes_eqb n (map_put k v m) = if bytes_eqb k n then Some v else map_get bytes_eqb n m.
Proof.
  destruct (bytes_eqb k n) eqn:E.
  - apply bytes_eqb_spec in E as ->. apply name_get_put_eq.
  - apply name_get_put_ne. intros ->. rewrite bytes_eqb_refl in E. discriminate.
Qed.
Lemma history_knows p fs paths s : history p fs paths s -> each knows s.
Proof.
  apply history_each.
  - intros t ti (A & B & C & D & E). split; rewrite ?A, ?B, ?D, ?E; intros; try contradiction; apply last_called_none.
  - intros t ti b []. split; auto.
  - intros t ti b []. split; auto.
  - intros t ti b []. split; auto.
  - intros t ti f E []. split; cbn [ti_fields ti_methods ti_field_map ti_method_map with_field]; auto.
    + intros g Hg. apply in_app_or in Hg as [Hg|[<-|[]]]; auto.
    + intro n. rewrite get_put. now apply last_called_snoc.
  - intros t ti f E []. split; cbn [ti_fields ti_methods ti_field_map ti_method_map with_method]; auto.
    + intros g Hg. apply in_app_or in Hg as [Hg|[<-|[]]]; auto.
    + intro n. rewrite get_put. now apply last_called_snoc.
Qed.

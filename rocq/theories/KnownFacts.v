(** The assemblies that are loaded keep their names while further ones are loaded. *)
From Coq Require Import NArith String List Bool Lia Arith.
From Coq.Strings Require Import Byte.
From Verif Require Import Base BaseFacts BinaryReader Attributes Tables Blob Metadata Runtime Loader SpecRuntime RuntimeInv SpecHistory
  HistoryProofs InterpInv LayoutFacts MemberFacts SpecLoader SpecLoadMessages
  LoadMessageFacts.
Import ListNotations.
Open Scope N_scope.

(** ** What does not touch the assemblies *)

Definition quiet {A} (m : M vm A) : Prop :=
  forall s, match m s with
            | Ok _ s' | Err _ s' => c_arena s' = c_arena s /\ c_assemblies s' = c_assemblies s /\ c_paths s' = c_paths s
            | _ => True
            end.
Lemma qt_pure {A} (m : M vm A) : pure m -> quiet m.
Proof. intros H s. specialize (H s). destruct (m s); subst; auto. Qed.
Lemma qt_bind {A B} (m : M vm A) (k : A -> M vm B) : quiet m -> (forall a, quiet (k a)) -> quiet (bind m k).
Proof.
  intros Hm Hk s. unfold bind. specialize (Hm s). destruct (m s) as [a s1|e s1|w|w|]; auto.
  specialize (Hk a s1). destruct Hm as (P & Q & R). destruct (k a s1); auto; rewrite <- P, <- Q, <- R; exact Hk.
Qed.
Lemma qt_map_err {A} (m : M vm A) e : quiet m -> quiet (map_err m e).
Proof. intros H s. specialize (H s). unfold map_err. destruct (m s); auto. Qed.
Lemma qt_unwrap_result {A} (m : M vm A) : quiet m -> quiet (unwrap_result m).
Proof. intros H s. specialize (H s). unfold unwrap_result. destruct (m s); auto. Qed.
Lemma qt_map_m {A B} (f : A -> M vm B) : (forall x, quiet (f x)) -> forall l, quiet (map_m f l).
Proof.
  intro H. induction l as [|x l IH]; cbn [map_m]; [apply qt_pure, pure_ret|].
  apply qt_bind; [apply H|intro y]. apply qt_bind; [exact IH|intro ys]. apply qt_pure, pure_ret.
Qed.
Ltac qui := repeat first
  [ apply qt_pure; first [apply pure_ret | apply pure_fail | apply pure_panic | apply pure_ub | apply pure_nofuel
      | apply pure_lift | apply pure_with_reader | apply pure_row_at | apply pure_ok_or | apply pure_unwrap | apply pure_ovf
      | apply pure_the_type | apply pure_the_assembly | apply pure_get_type | apply pure_named | apply pure_type_def_or_ref_name ]
  | apply qt_map_err | apply qt_unwrap_result
  | lazymatch goal with |- quiet (bind _ _) => apply qt_bind; [|intro] end ].

Lemma qt_next_type_id p : quiet (next_type_id p).
Proof. intro s. unfold next_type_id. destruct (u_add _ _ _ _); [|exact Logic.I]. cbn. auto. Qed.
Lemma qt_add_type ti : quiet (add_type ti).
Proof. intro s. cbn. auto. Qed.
Lemma qt_array_of p t : quiet (array_of p t).
Proof.
  unfold array_of. qui. destruct a0; [qui|]. apply qt_bind; [apply qt_next_type_id|intro id].
  qui. apply qt_add_type.
Qed.
Lemma qt_type_for_element p md : forall e, quiet (type_for_element p md e).
Proof. induction e; cbn [type_for_element]; qui; auto using qt_array_of. Qed.
Lemma qt_read_locals p md : forall n r, quiet (read_locals p md n r).
Proof.
  induction n as [|n IH]; intro r; cbn [read_locals]; [qui|]. qui. destruct a as [e r'].
  apply qt_bind; [apply qt_type_for_element|intro t]. apply qt_bind; [apply IH|intro ts]. qui.
Qed.
Lemma qt_load_locals p md tok : quiet (load_locals p md tok).
Proof.
  unfold load_locals. destruct (_ =? _); [qui|]. qui. destruct a1 as [b r]. destruct (negb _); [qui|].
  qui. destruct a1 as [c r']. apply qt_read_locals.
Qed.
Lemma qt_load_body p md rva : quiet (load_body p md rva).
Proof.
  unfold load_body. qui. destruct a1 as [b r].
  assert (H2 : quiet (' (code, _) <- with_reader r (read_code p (N.shiftr (N.land b 0xfc) 2)) ;;
      ret (mkBody code 8 [] (has b 0x10) []))). { qui. destruct a1. qui. }
  assert (H3 : quiet (' (_, r) <- with_reader r (advance p 1) ;;
      ' (max_stack, r) <- with_reader r (rd p 2 bad_body) ;;
      ' (code_size, r) <- with_reader r (rd p 4 bad_body) ;;
      ' (locals_token, r) <- with_reader r (rd p 4 bad_body) ;;
      locals <- load_locals p md locals_token ;;
      ' (code, r) <- with_reader r (read_code p code_size) ;;
      clauses <- (if has b 8 then read_section p md r else ret []) ;;
      ret (mkBody code max_stack locals (has b 0x10) clauses))).
  { do 4 (apply qt_bind; [qui|intros [? ?]]). apply qt_bind; [apply qt_load_locals|intro ls].
    apply qt_bind; [qui|intros [? ?]]. apply qt_bind; [|intro; qui].
    destruct (has b 8); [apply qt_pure, pure_read_section|qui]. }
  destruct (N.land b 3) as [|[[?|?|]|[?|?|]|]]; first [exact H2|exact H3|qui].
Qed.
Lemma qt_signature_at {A} p md h (m : M reader A) : quiet (signature_at p md h m).
Proof. unfold signature_at. qui. Qed.
Lemma qt_load_field p md t i o : quiet (load_field p md t i o).
Proof. unfold load_field. qui; [apply qt_signature_at|apply qt_type_for_element]. Qed.
Lemma qt_load_params p md : forall es h, quiet (load_params p md h es).
Proof.
  induction es as [|e es IH]; intro h; cbn [load_params]; [qui|]. qui; [apply qt_type_for_element|apply IH].
Qed.
Lemma qt_load_method p md t i : quiet (load_method p md t i).
Proof.
  unfold load_method. do 2 (apply qt_bind; [qui|intro]). apply qt_bind; [apply qt_signature_at|intro sig].
  apply qt_bind.
  - destruct (mi_internal_call _).
    + apply qt_bind; [|intro ns].
      { unfold param_type_names. apply qt_map_m. intro e. qui. apply qt_type_for_element. }
      qui. apply qt_type_for_element.
    + destruct (ma_pinvoke_impl _); [qui|]. destruct (negb _); [|qui]. apply qt_bind; [apply qt_load_body|intro]. qui.
  - intro im. apply qt_bind; [apply qt_type_for_element|intro rt]. apply qt_bind; [apply qt_load_params|intro ps]. qui.
Qed.
Lemma qt_load_type p md a i : quiet (load_type p md a i).
Proof. unfold load_type. qui; [apply qt_next_type_id|]. apply qt_add_type. Qed.
Lemma qt_load_types p md a : forall n i, quiet (load_types p md a n i).
Proof. induction n as [|n IH]; intro i; cbn [load_types]; [qui|]. qui; [apply qt_load_type|apply IH]. Qed.

Section Known.
  Variables (a0 : aref) (n0 : name) (asm : list aref) (paths : list name).
  Definition known (s : vm) : Prop :=
    incl asm (c_assemblies s) /\ c_paths s = paths /\ exists ai, nth_error (c_arena s) a0 = Some (Some ai) /\ a_name ai = n0.
  Lemma after_quiet {A} (m : M vm A) s : quiet m -> known s -> after known (m s).
  Proof.
    intros Q H. specialize (Q s). unfold after, known in *. destruct (m s); auto; destruct Q as (-> & -> & ->); exact H.
  Qed.
  Lemma modify_knows t f s : known s -> after known (modify_type t f s).
  Proof. intro H. exact H. Qed.
  Lemma assembly_knows a f s : (forall ai, a_name (f ai) = a_name ai) -> known s -> after known (modify_assembly a f s).
  Proof.
    intros F (I & Pa & ai & E & N). split; [exact I|split; [exact Pa|]]. cbn [c_arena set_arena]. rewrite nth_update, E.
    destruct (Nat.eqb a a0); cbn; eauto. exists (f ai). now rewrite F.
  Qed.

  Variables (p : profile) (md : metadata).

  Lemma resolve_base_knows t i s : known s -> after known (resolve_base p md t i s).
  Proof.
    intro H. unfold resolve_base. apply after_pure; [apply pure_row_at|exact H|intros d _].
    assert (K : after known ((o <- type_def_or_ref_name p md (td_extends d) ;;
      b <- match o with Some n => get_type n | None => ret None end ;;
      b <- ok_or b "Unable to find base type" ;; modify_type t (with_base (Some b))) s)).
    { apply after_pure; [apply pure_type_def_or_ref_name|exact H|intros o _].
      apply after_pure; [destruct o; [apply pure_get_type|apply pure_ret]|exact H|intros b _].
      apply after_pure; [apply pure_ok_or|exact H|intros x _]. now now apply modify_knows. }
    destruct (ref_table (td_extends d)); try exact K. destruct (ref_index (td_extends d)); [exact H|exact K].
  Qed.
  Lemma resolve_kind_knows t i s : known s -> after known (resolve_kind p md t i s).
  Proof.
    intro H. unfold resolve_kind. apply after_pure; [apply pure_row_at|exact H|intros d _].
    apply after_pure; [apply pure_the_type|exact H|intros ti _].
    apply after_pure; [|exact H|intros k _; apply modify_knows; auto].
    destruct (ta_semantics _); [|apply pure_ret]. destruct (ti_base ti); [|apply pure_ret].
    apply pure_bind; [apply pure_the_type|intro; apply pure_ret].
  Qed.
  Lemma load_fields_knows fuel t : forall n i off s, known s -> after known (load_fields fuel p md t n i off s).
  Proof.
    induction n as [|n IH]; intros i off s H; cbn [load_fields]; [exact H|].
    apply after_bind with (P := known); [apply after_quiet; [apply qt_load_field|exact H]|auto|].
    intros f s1 E1 H1.
    apply after_bind with (P := known); [apply modify_knows; auto|auto|]. intros [] s2 _ H2.
    apply after_pure; [apply pure_the_type|exact H2|intros ti _].
    apply after_bind with (P := known); [apply assembly_knows; [reflexivity|exact H2]|auto|]. intros [] s3 _ H3.
    apply after_pure; [apply pure_type_size|exact H3|intros sz _].
    apply after_pure; [apply pure_ovf|exact H3|intros o _]. now apply IH.
  Qed.
  Lemma resolve_fields_knows fuel t i s : known s -> after known (resolve_fields fuel p md t i s).
  Proof.
    intro H. unfold resolve_fields.
    apply after_pure; [apply pure_row_at|exact H|intros d _].
    apply after_pure; [apply pure_run_length|exact H|intros c _].
    apply after_pure; [apply pure_reserve|exact H|intros [] _].
    apply after_pure; [apply pure_ovf|exact H|intros stop _].
    apply after_pure; [apply pure_the_type|exact H|intros ti _].
    apply after_pure; [destruct (ti_base ti); [apply pure_type_size|apply pure_ret]|exact H|intros off _].
    apply after_pure; [apply pure_the_assembly|exact H|intros ai _]. now apply load_fields_knows.
  Qed.
  Lemma resolve_methods_knows t i s : known s -> after known (resolve_methods p md t i s).
  Proof.
    intro H. unfold resolve_methods.
    apply after_pure; [apply pure_row_at|exact H|intros d _].
    apply after_pure; [apply pure_run_length|exact H|intros c _].
    apply after_pure; [apply pure_reserve|exact H|intros [] _].
    apply after_pure; [apply pure_ovf|exact H|intros stop _].
    generalize (N.to_nat (stop - td_method_list d)). intro cnt. revert s H. generalize (td_method_list d).
    induction cnt as [|k IH]; intros j s H; cbn [range_m]; [exact H|].
    apply after_bind with (P := known); [|auto|intros [] s2 _ H2; now apply IH].
    apply after_bind with (P := known); [apply after_quiet; [apply qt_load_method|exact H]|auto|].
    intros m s1 E1 H1. now apply modify_knows.
  Qed.
  Lemma resolve_knows fuel t i s : known s -> after known (resolve fuel p md t i s).
  Proof.
    intro H. unfold resolve.
    apply after_bind with (P := known); [now apply resolve_base_knows|auto|]. intros [] s1 _ H1.
    apply after_bind with (P := known); [now apply resolve_kind_knows|auto|]. intros [] s2 _ H2.
    apply after_bind with (P := known); [now apply resolve_fields_knows|auto|]. intros [] s3 _ H3.
    now apply resolve_methods_knows.
  Qed.
  Lemma resolve_types_knows fuel : forall ts i s, known s -> after known (resolve_types fuel p md ts i s).
  Proof.
    induction ts as [|t ts IH]; intros i s H; cbn [resolve_types]; [exact H|].
    apply after_bind with (P := known); [now apply resolve_knows|auto|]. intros [] s1 _ H1. now apply IH.
  Qed.
  Lemma load_interface_impl_knows ii s : known s -> after known (load_interface_impl p md ii s).
  Proof.
    intro H. unfold load_interface_impl.
    assert (FN : forall x y, pure (full_name_at md x y)) by (intros; unfold full_name_at; pur).
    apply after_pure; [apply pure_row_at|exact H|intros d _].
    apply after_pure; [apply FN|exact H|intros fn _].
    apply after_pure; [apply pure_get_type|exact H|intros o _].
    apply after_pure; [apply pure_unwrap|exact H|intros t _].
    apply after_pure; [|exact H|intros ifn _].
    { destruct (ref_table _); try apply pure_panic; (apply pure_bind; [apply pure_row_at|intro; apply FN]). }
    apply after_pure; [apply pure_get_type|exact H|intros o2 _].
    apply after_pure; [apply pure_unwrap|exact H|intros i _]. now apply modify_knows.
  Qed.
  Lemma load_contents_knows fuel a s : known s -> after known (load_contents fuel p md a s).
  Proof.
    intros H. unfold load_contents.
    apply after_bind with (P := known); [apply after_quiet; [apply qt_load_types|exact H]|auto|]. intros ts s1 _ H1.
    apply after_bind with (P := known); [now apply resolve_types_knows|auto|]. intros [] s2 _ H2.
    apply after_bind with (P := known); [|auto|].
    { revert s2 H2. induction (tb_interface_impl (m_tables md)) as [|ii l IH]; intros s2 H2; cbn [iter_m]; [exact H2|].
      apply after_bind with (P := known); [now apply load_interface_impl_knows|auto|]. intros [] s3 _ H3. now apply IH. }
    intros [] s3 _ H3.
    apply after_bind with (P := known); [apply assembly_knows; [reflexivity|exact H3]|auto|]. intros [] s4 _ H4.
    apply after_pure; [|exact H4|intros defs _].
    { clear. induction ts as [|x l IH]; cbn [map_m]; [apply pure_ret|].
      apply pure_bind; [apply pure_bind; [apply pure_the_type|intro; apply pure_ret]|intro].
      apply pure_bind; [exact IH|intro; apply pure_ret]. }
    apply after_bind with (P := known); [apply assembly_knows; [reflexivity|exact H4]|auto|]. intros [] s5 _ H5.
    apply after_bind with (P := known); [|auto|intros [] s6 _ (I6 & H6); split; [cbn; apply incl_appl, I6|exact H6]].
    destruct (m_entry_point md) as [ep|]; [|exact H5].
    apply after_pure; [apply pure_resolve_method|exact H5|intros o _].
    apply after_pure; [apply pure_ok_or|exact H5|intros x _]. apply assembly_knows; [reflexivity|exact H5].
  Qed.
End Known.

Lemma contents_listed fuel p md a s s' : load_contents fuel p md a s = Ok tt s' -> In a (c_assemblies s').
Proof.
  unfold load_contents. intro E. do 7 (apply bind_inv_ok in E as (? & ? & _ & E)). unfold bind, get_state, put_state in E.
  injection E as <-. cbn [c_assemblies set_assemblies]. apply in_elt.
Qed.

(** Whatever is known stays known when an image is loaded, whether or not this succeeds. *)
Section Loads.
  Variables (a0 : aref) (n0 : name) (asm : list aref) (paths : list name) (p : profile) (fs : file_system).
  Let K := known a0 n0 asm paths.
  Lemma load_data_knows : forall fuel data s, K s -> after K (load_data fuel p fs data s).
  Proof.
    unfold K. induction fuel as [|fuel IH]; intros data s H; cbn [load_data]; [exact Logic.I|].
    apply after_pure; [apply pure_lift|exact H|intros md _].
    apply after_pure; [apply pure_row_at|exact H|intros row _].
    apply after_pure; [apply pure_unwrap|exact H|intros n _].
    apply after_bind with (P := known a0 n0 asm paths); [|auto|].
    { revert s H. induction (tb_assembly_ref (m_tables md)) as [|r l IHl]; intros s H; cbn [iter_m]; [exact H|].
      apply after_bind with (P := known a0 n0 asm paths); [|auto|intros [] s1 _ H1; now apply IHl].
      apply after_pure; [apply pure_ok_or|exact H|intros rn _]. unfold bind at 1. unfold get_state.
      destruct (loaded _ _ _); [exact H|]. apply after_pure; [apply pure_ok_or|exact H|intros path _].
      destruct (fs _ _) as [| |d]; try exact H.
      apply after_bind with (P := known a0 n0 asm paths); [now apply IH|auto|intros x y _ Hy; exact Hy]. }
    intros [] s1 _ H1.
    apply after_pure; [apply pure_load_method_refs|exact H1|intros ms _].
    apply after_pure; [apply pure_load_type_refs|exact H1|intros ts _].
    unfold bind at 1. unfold new_assembly. set (s2 := set_arena s1 _).
    assert (L : (a0 < List.length (c_arena s1))%nat) by (destruct H1 as (_ & _ & ai & E & _); apply nth_error_Some; congruence).
    assert (H2 : known a0 n0 asm paths s2).
    { destruct H1 as (I & Pa & ai & E & N). split; [exact I|split; [exact Pa|]]. exists ai. split; [|exact N].
      cbn [c_arena set_arena s2]. now rewrite nth_error_app1. }
    pose proof (load_contents_knows a0 n0 asm paths p md fuel (List.length (c_arena s1)) s2 H2) as R.
    unfold drop_on_error, after in *. destruct (load_contents fuel p md _ s2) as [u s3|e s3|?|?|]; auto.
    destruct R as (I & Pa & ai & E & N). split; [exact I|split; [exact Pa|]]. exists ai. split; [|exact N].
    cbn [c_arena set_arena]. rewrite nth_update. destruct (Nat.eqb_spec (List.length (c_arena s1)) a0); [lia|exact E].
  Qed.
  Lemma load_assembly_knows fuel n s : K s -> after K (load_assembly fuel p fs n s).
  Proof.
    intro H. rewrite load_by_name. destruct (resolve_assembly_name _ _ _) as [c|]; [|exact H].
    destruct (fs _ _); try exact H. now apply load_data_knows.
  Qed.
  Lemma obtained_knows f md rows s s1 : obtained p fs f md rows s s1 -> K s -> K s1.
  Proof.
    induction 1 as [| |r rows rn s a s1 s2 T Q La O IH]; auto. intro H'. apply IH. pose proof (load_assembly_knows f rn s H') as X. now rewrite La in X.
  Qed.
End Loads.

Lemma loaded_known s n : loaded_as s n -> exists a, In a (c_assemblies s) /\ known a n (c_assemblies s) (c_paths s) s.
Proof. intros (a & ai & I & E & N). exists a. split; [exact I|]. split; [apply incl_refl|]. split; [reflexivity|eauto]. Qed.
Lemma known_loaded a n asm paths s : known a n asm paths s -> In a asm -> loaded_as s n.
Proof. intros (I & _ & ai & E & N) Ia. exists a, ai. auto. Qed.
Lemma after_loads {A} (m : M vm A) n s : (forall a asm paths, known a n asm paths s -> after (known a n asm paths) (m s)) ->
  loaded_as s n -> after (fun s' => loaded_as s' n) (m s).
Proof.
  intros H X. destruct (loaded_known _ _ X) as (a & I & Y). eapply after_weaken; [|eapply H; exact Y].
  intros s' Z. eapply known_loaded; eauto.
Qed.

(** What is under way after the references of the image. *)
Lemma load_phases f p fs data s a s' : load_data (S f) p fs data s = Ok a s' -> exists md n s1,
  image_of p data md n /\ obtained p fs f md (tb_assembly_ref (m_tables md)) s s1 /\
  (forall a0 n0 asm paths, known a0 n0 asm paths s1 -> known a0 n0 asm paths s') /\
  In a (c_assemblies s') /\ exists ai, nth_error (c_arena s') a = Some (Some ai) /\ a_name ai = n.
Proof.
  intro E. destruct (data_image _ _ _ _ _ _ _ E) as (md & n & I). exists md, n.
  rewrite (load_step _ _ _ _ _ _ _ I) in E. fold (one_reference p fs f md) in E.
  apply bind_inv_ok in E as ([] & s1 & E1 & E). exists s1. split; [exact I|].
  split; [now apply iter_obtained|].
  apply bind_inv_ok in E as (ms & s2 & E2 & E). pose proof (pure_load_method_refs p md (tb_member_ref (m_tables md)) s1) as P2.
  rewrite E2 in P2. cbn in P2. subst s2.
  apply bind_inv_ok in E as (ts & s2 & E3 & E). pose proof (pure_load_type_refs p md s1) as P3. rewrite E3 in P3. cbn in P3. subst s2.
  unfold bind at 1 in E. unfold new_assembly in E. set (s2 := set_arena s1 _) in E. unfold drop_on_error in E.
  destruct (load_contents f p md _ s2) as [[] s3|? ?|?|?|] eqn:E4; try discriminate. injection E as <- <-.
  split; [|split; [eapply contents_listed; eauto|]].
  - intros a0 n0 asm paths (X & Pa & ai & Y & N).
    assert (L : (a0 < List.length (c_arena s1))%nat) by (apply nth_error_Some; congruence).
    assert (H2 : known a0 n0 asm paths s2).
    { split; [exact X|split; [exact Pa|]]. exists ai. split; [|exact N]. cbn [c_arena set_arena s2]. now rewrite nth_error_app1. }
    pose proof (load_contents_knows a0 n0 asm paths p md f (List.length (c_arena s1)) s2 H2) as R. now rewrite E4 in R.
  - assert (H2 : known (List.length (c_arena s1)) n [] (c_paths s1) s2).
    { split; [intros ? []|split; [reflexivity|]]. eexists. cbn [c_arena set_arena s2]. rewrite nth_error_app2, Nat.sub_diag by lia. split; reflexivity. }
    pose proof (load_contents_knows _ n [] (c_paths s1) p md f (List.length (c_arena s1)) s2 H2) as R. rewrite E4 in R. destruct R as (_ & _ & R). exact R.
Qed.

(** C38: what a load that fails leaves behind. *)
From Coq Require Import NArith Lia String List Bool.
From Coq.Strings Require Import Byte.
From Verif Require Import Base BaseFacts Metadata Tables Runtime Loader Texts LoadMessages SpecRuntime SpecBody SpecLoader SpecHistory SpecLoadMessages
  SpecRemains HistoryProofs BodyProofs LoaderFacts LoaderRun LoadMessageFacts DemoImages DemoStates ZooImages ZooStates PropsLoader PropsLoadMessages.
Import ListNotations.
Open Scope N_scope.

Lemma successes_app p fs s s1 s2 : successes p fs s s1 -> successes p fs s1 s2 -> successes p fs s s2.
Proof. induction 1; auto. intro. eapply one_more; eauto. Qed.
Lemma obtained_successes p fs f md rows s s1 : obtained p fs f md rows s s1 -> successes p fs s s1.
Proof. induction 1; [constructor|assumption|eapply one_more; eauto]. Qed.

Lemma full_name_err md x y s e s' : full_name_at md x y s <> Err e s'.
Proof.
  unfold full_name_at, bind, unwrap. destruct (string_at md x); [|discriminate]. cbn [ret]. unfold ret. destruct (string_at md y); discriminate.
Qed.
Lemma row_err {A} p (rows : list A) k (s : vm) e s' : row_at p rows k s = Err e s' -> s' = s.
Proof. unfold row_at, lift. destruct (table_index p rows k); try discriminate. congruence. Qed.
(** Loads of methods and types change nothing when they fail. *)
Lemma methods_err p md : forall rows s e s', load_method_refs p md rows s = Err e s' -> s' = s.
Proof.
  induction rows as [|row rows IH]; intros s e s' E; [discriminate|]. cbn [load_method_refs] in E. destruct (ref_table (mr_parent row)); eauto.
  unfold bind at 1 in E. destruct (row_at p _ _ s) as [tr s1|e1 s1|?|?|] eqn:E1; try discriminate.
  2:{ apply row_err in E1. congruence. }
  apply row_same in E1. subst s1. unfold bind at 1 in E. destruct (full_name_at md _ _ s) as [fn s1|e1 s1|?|?|] eqn:E2; try discriminate.
  2:{ destruct (full_name_err _ _ _ _ _ _ E2). }
  apply full_name_at_run in E2 as [-> _]. unfold bind at 1 in E. unfold get_type in E. destruct (map_get bytes_eqb fn (c_type_map s)) as [t|].
  2:{ unfold bind in E. cbn [ok_or] in E. unfold fail in E. congruence. }
  unfold bind at 1 in E. cbn [ok_or] in E. unfold ret at 1 in E. unfold bind at 1 in E. destruct (string_at md (mr_name row)) as [mn|].
  2:{ cbn [ok_or] in E. unfold fail in E. congruence. }
  cbn [ok_or] in E. unfold ret at 1 in E. unfold bind at 1 in E. unfold get_method, bind at 1, the_type in E. destruct (nth_error (c_types s) t) as [ti|]; [|discriminate].
  unfold ret at 1 in E. unfold bind at 1 in E. destruct (map_get bytes_eqb mn (ti_method_map ti)) as [m|].
  2:{ cbn [ok_or] in E. unfold fail in E. congruence. }
  cbn [ok_or] in E. unfold ret at 1 in E. unfold bind in E. destruct (load_method_refs p md rows s) as [ms s1|e1 s1|?|?|] eqn:E3; try discriminate.
  apply IH in E3. congruence.
Qed.
Lemma types_err p md s e s' : load_type_refs p md s = Err e s' -> s' = s.
Proof.
  unfold load_type_refs. revert s e s'. induction (tb_type_ref (m_tables md)) as [|row rows IH]; intros s e s' E; [discriminate|]. cbn [map_m] in E.
  unfold bind at 1 in E. unfold bind at 1 in E. destruct (full_name_at md _ _ s) as [fn s1|e1 s1|?|?|] eqn:E2; try discriminate.
  2:{ destruct (full_name_err _ _ _ _ _ _ E2). }
  apply full_name_at_run in E2 as [-> _]. unfold bind at 1 in E. unfold get_type at 1 in E. destruct (map_get bytes_eqb fn (c_type_map s)) as [t|].
  2:{ cbn [ok_or] in E. unfold fail in E. congruence. }
  cbn [ok_or] in E. unfold ret at 1 in E. unfold bind at 1 in E.
  match type of E with match ?x with _ => _ end = _ => destruct x as [ts s1|e1 s1|?|?|] eqn:E3 end; try discriminate.
  apply IH in E3. congruence.
Qed.
(** Where the loop over the references stops. *)
Lemma iter_err p fs f md e s2 : forall rows s, iter_m (one_reference p fs f md) rows s = Err e s2 ->
  exists before r after s1, rows = before ++ r :: after /\ obtained p fs f md before s s1 /\ one_reference p fs f md r s1 = Err e s2.
Proof.
  induction rows as [|r rows IH]; intros s E; [discriminate|]. cbn [iter_m] in E. unfold bind at 1 in E.
  destruct (one_reference p fs f md r s) as [[] s1|e1 s1|?|?|] eqn:E1; try discriminate.
  - destruct (IH _ E) as (b & q & a & s3 & -> & O & X). exists (r :: b), q, a, s3. split; [reflexivity|]. split; [|exact X].
    apply iter_obtained. cbn [iter_m]. unfold bind. rewrite E1. now apply iter_obtained.
  - exists [], r, rows, s. split; [reflexivity|]. split; [constructor|congruence].
Qed.
Lemma reference_err p fs f md r s e s2 : one_reference p fs f md r s = Err e s2 ->
  s2 = s \/ exists x, load_data f p fs x s = Err e s2.
Proof.
  unfold one_reference, bind at 1. destruct (string_at md (ar_name r)) as [rn|]; cbn [ok_or]; [|unfold fail; intro E; left; congruence].
  unfold ret at 1. unfold bind at 1, get_state. destruct (loaded _ _ rn); [discriminate|]. unfold bind. rewrite load_by_name.
  destruct (resolve_assembly_name fs (c_paths s) rn) as [c|]; [|intro E; left; congruence].
  destruct (fs (fst c) (snd c)) as [| |x]; [intro E; left; congruence..|]. intro E. right. exists x.
  destruct (load_data f p fs x s); try discriminate. congruence.
Qed.

(** Whatever the reason for which a load fails, it leaves nothing but whole assemblies, which loads by
    name have loaded, except if everything is there that some image refers to, and it is the contents of
    that image which cannot be loaded: then the load leaves what the load of this image leaves. *)
Theorem C38_remains p fs paths : forall fuel data s e s2, history p fs paths s -> load_data fuel p fs data s = Err e s2 ->
  successes p fs s s2 \/
  exists f data' s1, successes p fs s s1 /\ lacks_nothing p fs f data' s1 /\ load_data (S f) p fs data' s1 = Err e s2.
Proof.
  induction fuel as [|f IH]; intros data s e s2 H E; [discriminate|].
  destruct (read_metadata p data tt) as [md []|e1 []|w|w|] eqn:Em.
  2:{ left. rewrite (C38_unreadable _ _ _ _ _ _ Em) in E. injection E as _ <-. constructor. }
  2,3,4: exfalso; cbn [load_data] in E; unfold bind at 1, lift in E; rewrite Em in E; discriminate.
  assert (I : s2 = s \/ exists n, image_of p data md n).
  { pose proof E as X. cbn [load_data] in X. unfold bind at 1, lift in X. rewrite Em in X. unfold bind at 1 in X.
    change (handle_of_position TAssembly 0) with 1 in X.
    destruct (row_at p (tb_assembly (m_tables md)) 1 s) as [row s1|e1 s1|?|?|] eqn:E2; try discriminate.
    2:{ apply row_err in E2. left. congruence. }
    right. unfold bind at 1 in X. destruct (string_at md (as_name row)) as [n|] eqn:T; [|discriminate]. apply string_at_inv in T.
    exists n. split; [exact Em|]. exists row. split; [|exact T]. split; [lia|]. unfold row_at, lift, table_index in E2.
    change (u_sub p 64 1 1) with (Some 0) in E2. cbn beta iota in E2.
    destruct (nth_error (tb_assembly (m_tables md)) (N.to_nat 0)) as [x|] eqn:X1; [|discriminate]. injection E2 as -> _. exact X1. }
  destruct I as [->|[n I]]; [left; constructor|]. pose proof E as E0. rewrite (load_step _ _ _ _ _ _ _ I) in E. fold (one_reference p fs f md) in E.
  unfold bind at 1 in E. destruct (iter_m _ (tb_assembly_ref (m_tables md)) s) as [[] s1|e1 s1|?|?|] eqn:E1; try discriminate.
  - assert (O : obtained p fs f md (tb_assembly_ref (m_tables md)) s s1) by (apply iter_obtained; exact E1).
    pose proof (obtained_history _ _ paths _ _ _ _ _ O H) as H1. destruct (history_ok _ _ _ _ H1) as (W & _).
    unfold bind at 1 in E. destruct (load_method_refs p md _ s1) as [ms s3|e3 s3|?|?|] eqn:E3; try discriminate.
    2:{ apply methods_err in E3. left. injection E as _ <-. subst s3. eapply obtained_successes; eauto. }
    destruct (method_refs_run _ _ _ W (counted _ _ _ _ I) _ _ _ E3) as [-> F2].
    unfold bind at 1 in E. destruct (load_type_refs p md s1) as [ts s3|e3 s3|?|?|] eqn:E4; try discriminate.
    2:{ apply types_err in E4. left. injection E as _ <-. subst s3. eapply obtained_successes; eauto. }
    destruct (type_refs_run _ _ _ _ _ W E4) as [-> F3].
    right. exists f, data, s. split; [constructor|]. split; [|exact E0]. exists md, n, s1. split; [exact I|]. split; [exact O|]. split.
    + exact (members_found _ _ _ _ _ _ H1 F2).
    + intros q Iq. apply In_nth_error in Iq as [i Ei]. destruct (Forall2_nth_error_l _ _ _ _ _ F3 Ei) as (t & _ & tn & ns & A & B & C).
      exists tn, ns, t. auto.
  - assert (e1 = e /\ s1 = s2) as [-> ->] by (split; congruence). apply iter_err in E1 as (b & r & a & s3 & _ & O & X).
    pose proof (obtained_successes _ _ _ _ _ _ _ O) as Su. pose proof (obtained_history _ _ paths _ _ _ _ _ O H) as H3.
    apply reference_err in X as [->|[x X]]; [left; exact Su|].
    destruct (IH _ _ _ _ H3 X) as [Y|(f' & d & s4 & Y & Z)]; [left; eapply successes_app; eauto|].
    right. exists f', d, s4. split; [eapply successes_app; eauto|exact Z].
Qed.

Lemma lacking p fs paths : forall fuel data s t, lacks p fs fuel data s t -> history p fs paths s ->
  exists e s2, load_data fuel p fs data s = Err e s2 /\ successes p fs s s2.
Proof.
  assert (R : forall f data md n before r after s s1 e s2, image_of p data md n -> tb_assembly_ref (m_tables md) = before ++ r :: after ->
    obtained p fs f md before s s1 -> one_reference p fs f md r s1 = Err e s2 -> load_data (S f) p fs data s = Err e s2).
  { intros f data md n before r after s s1 e s2 I Eb O X. rewrite (load_step _ _ _ _ _ _ _ I), Eb.
    pose proof (iter_stops p fs f md r after e s2 _ _ _ O X) as Y. unfold bind at 1. unfold one_reference in Y. rewrite Y. reflexivity. }
  assert (A : forall f data md n s s1 e, image_of p data md n -> obtained p fs f md (tb_assembly_ref (m_tables md)) s s1 ->
    (load_method_refs p md (tb_member_ref (m_tables md)) s1 = Err e s1 \/
     (exists ms, load_method_refs p md (tb_member_ref (m_tables md)) s1 = Ok ms s1) /\ load_type_refs p md s1 = Err e s1) ->
    load_data (S f) p fs data s = Err e s1).
  { intros f data md n s s1 e I O X. rewrite (load_step _ _ _ _ _ _ _ I). pose proof (proj2 (iter_obtained _ _ _ _ _ _ _) O) as Y.
    unfold bind at 1. unfold one_reference in Y. rewrite Y. unfold bind. destruct X as [->|[[ms ->] ->]]; reflexivity. }
  assert (M : forall f data md n s s1 t, image_of p data md n -> obtained p fs f md (tb_assembly_ref (m_tables md)) s s1 -> history p fs paths s ->
    member_lacks md n s1 (tb_member_ref (m_tables md)) t -> exists e s2, load_data (S f) p fs data s = Err e s2 /\ successes p fs s s2).
  { intros f data md n s s1 t I O H X. pose proof (obtained_history _ _ paths _ _ _ _ _ O H) as H1.
    pose proof (methods_complete _ _ _ _ n _ H1 _ _ X) as Y. destruct (methods_agree _ _ _ _ _ _ _ _ Y eq_refl) as (e & Z & _).
    exists e, s1. split; [eapply A; eauto|eapply obtained_successes; eauto]. }
  intros fuel data s t X. induction X; intro Hh.
  - exists "Could not locate assembly"%string, s1. split; [|eapply obtained_successes; eauto]. eapply R; eauto. unfold one_reference, bind.
    rewrite (string_at_text _ _ _ H2). cbn [ok_or]. unfold ret, get_state. rewrite (proj2 (loaded_not _ _) H3), (load_name_missing _ _ _ _ _ H4). reflexivity.
  - pose proof (obtained_history _ _ paths _ _ _ _ _ H1 Hh) as Hs. destruct (IHX Hs) as (e & s2 & E & Su). exists e, s2.
    split; [|eapply successes_app; [eapply obtained_successes; eauto|exact Su]]. eapply R; eauto. unfold one_reference, bind.
    rewrite (string_at_text _ _ _ H2). cbn [ok_or]. unfold ret, get_state.
    rewrite (proj2 (loaded_not _ _) H3), (load_name_file _ _ _ _ _ _ _ H4 H5), E. reflexivity.
  - exists "invalid assembly references"%string, s1. split; [|eapply obtained_successes; eauto]. eapply R; eauto. unfold one_reference, bind.
    rewrite (proj2 (string_none _ _) H2). reflexivity.
  - eapply M; eauto. rewrite H1. eapply ml_parent; eauto.
  - eapply M; eauto. rewrite H1. eapply ml_name; eauto.
  - eapply M; eauto. rewrite H1. eapply ml_method; eauto.
  - pose proof (obtained_history _ _ paths _ _ _ _ _ H0 Hh) as Hs.
    pose proof (methods_there _ _ _ _ n _ Hs _ H1) as Y. destruct (methods_agree _ _ _ _ _ _ _ _ Y eq_refl) as [ms Z].
    pose proof (types_complete _ _ _ _ n _ Hs _ _ (tl_type _ _ _ _ _ after _ _ H3 H4 H5 H6)) as T. destruct (types_fail _ _ _ _ _ _ T) as (e & V & _).
    exists e, s1. split; [|eapply obtained_successes; eauto]. eapply A; eauto. right. split; [eauto|]. unfold load_type_refs. rewrite H2. exact V.
Qed.

(** In particular, if a load fails because something that is referred to is not there, what is left is
    whole assemblies only. *)
Theorem C38_lacking p fs paths fuel data s t : history p fs paths s -> lacks p fs fuel data s t ->
  exists e s2, load_data fuel p fs data s = Err e s2 /\ successes p fs s s2.
Proof. intros H X. eapply lacking; eauto. Qed.

(** ** Examples *)

(** The client on a disk where [Zoo] is fine, but the method that the client refers to is not there: what
    is left is [Zoo]. *)
Definition bun_files : file_system := fun d f =>
  if is_file d f "/app" "Zoo.exe" then File zoo_image else Missing.
Definition bun_left : vm := Eval vm_compute in state_of (load_assembly 9 Debug bun_files (text_of "Zoo") demo_disk).
Lemma bun_disk_history p : history p bun_files demo_paths demo_disk.
Proof. exists 10%nat, system_runtime, system_console, demo_disk. split; [destruct p; vm_compute; reflexivity|apply later_now]. Qed.
Example C38_lacking_example p : history p bun_files demo_paths demo_disk /\
  lacks p bun_files 10 bun_image demo_disk (text_of "Unable to find Zoo.Helper.Bun referenced by Client") /\
  load_data 10 p bun_files bun_image demo_disk = Err "Unable to find method" bun_left /\
  successes p bun_files demo_disk bun_left /\ loaded_as bun_left (text_of "Zoo") /\ ~ loaded_as demo_disk (text_of "Zoo").
Proof.
  split; [apply bun_disk_history|]. split.
  { apply (text_sound p bun_files demo_paths 10 bun_image demo_disk _ bun_left (bun_disk_history p)). destruct p; vm_compute; reflexivity. }
  split; [destruct p; vm_compute; reflexivity|]. split.
  { eapply one_more; [|constructor]. instantiate (3 := 9%nat). instantiate (2 := text_of "Zoo"). destruct p; vm_compute; reflexivity. }
  split; [apply loaded_iff; vm_compute; reflexivity|apply loaded_not; vm_compute; reflexivity].
Qed.
(** The contents of this image cannot be loaded, although it lacks nothing. *)
Example C38_remains_example p : history p no_files [] demo_vm /\ lacks_nothing p no_files 9 broken_image demo_vm /\
  exists s2, load_data 10 p no_files broken_image demo_vm = Err "No internal method with signature" s2.
Proof.
  assert (H : history p no_files [] demo_vm) by apply demo_vm_history.
  assert (E : exists s2, load_data 10 p no_files broken_image demo_vm = Err "No internal method with signature" s2)
    by (eexists; destruct p; vm_compute; reflexivity).
  split; [exact H|]. split; [|exact E].
  exists broken_md, (text_of "Broken"), demo_vm. split.
  { split; [apply broken_md_read|]. eexists. split; [split; [vm_compute; discriminate|vm_compute; reflexivity]|]. text_here. }
  split; [|split].
  - eapply obtained_before; [instantiate (1 := text_of "System.Runtime"); text_here|apply loaded_iff; vm_compute; reflexivity|].
    apply obtained_none.
  - intros row [].
  - intros row [<-|[]]. destruct (get_type (qualified (text_of "Object") (text_of "System")) demo_vm) as [[t|] s|? ?|?|?|] eqn:G; try (vm_compute in G; discriminate).
    exists (text_of "Object"), (text_of "System"), t. split; [text_here|]. split; [text_here|].
    eapply get_type_latest; [exact (proj1 (history_ok _ _ _ _ H))|exact G].
Qed.

Print Assumptions C38_remains.
Print Assumptions C38_lacking.

(** Loading comes to an end when types and references follow an order, and does not when they go round: C77. *)
From Coq Require Import NArith Arith String List Bool Lia.
From Coq.Strings Require Import Byte.
From Verif Require Import Base BinaryReader Pe Attributes Tables Blob Metadata Utf Runtime Loader ParseSpec BaseFacts.
From Verif Require Import SpecBytes SpecUtf SpecPe SpecBlob SpecMetadata SpecRuntime SpecBody SpecTypes SpecLoader SpecLoad SpecHistory SpecEnds.
From Verif Require Import RuntimeInv HistoryProofs BodyProofs LoaderFacts LoaderRun TypeFacts NeverFacts EndsFacts EndsLoad EndsRun.
From Verif Require Import DemoImages DemoStates ZooImages ZooStates KnotImages PropsLoader PropsImage PropsLoad.
Import ListNotations.
Open Scope N_scope.

(** ** From the types of a runtime to what the loader relies on *)

Lemma named_of ts t : (t < List.length ts)%nat -> is_named ts t (name_of ts t).
Proof. intro L. unfold name_of. destruct (nth_error ts t) as [ti|] eqn:E; [now exists ti|]. apply nth_error_None in E. lia. Qed.
Lemma of_named ts t n : is_named ts t n -> name_of ts t = n.
Proof. intros (ti & E & <-). unfold name_of. now rewrite E. Qed.
Lemma orderly_of p s o : consistent p s -> types_ordered o (c_types s) -> orderly o s.
Proof.
  intros W T. pose proof (types_ok _ _ W) as F. rewrite Forall_forall in F. split.
  - intros t ti b E B. apply nth_error_In in E as I. destruct (F _ I) as (_ & V & _). rewrite B in V.
    exists (name_of (c_types s) b). split; [now apply named_of|]. now apply (to_base _ _ T).
  - intros t ti i E Hi. apply nth_error_In in E as I. destruct (F _ I) as (_ & _ & _ & _ & V & _). rewrite Forall_forall in V.
    exists (name_of (c_types s) i). split; [apply named_of, (V _ Hi)|]. now apply (to_interface _ _ T).
  - intros t ti f E Hf. apply nth_error_In in E as I. destruct (F _ I) as (_ & _ & V & _). rewrite Forall_forall in V.
    exists (name_of (c_types s) (f_type f)). split; [apply named_of, (proj1 (V _ Hf))|]. now apply (to_field _ _ T).
  - intros n t E. pose proof (map_ok _ _ W n) as M. rewrite E in M. exact (proj1 M).
  - intros a Ha. pose proof (loaded_ok _ _ W) as L. rewrite Forall_forall in L. exact (L _ Ha).
Qed.
Lemma ordered_of o s : orderly o s -> types_ordered o (c_types s).
Proof.
  intros [B I F _ _]. split.
  - intros ti b H E. apply In_nth_error in H as [t H]. destruct (B _ _ _ H E) as (n & Hn & K). now rewrite (of_named _ _ _ Hn).
  - intros ti i H Hi. apply In_nth_error in H as [t H]. destruct (I _ _ _ H Hi) as (n & Hn & K). now rewrite (of_named _ _ _ Hn).
  - intros ti f H Hf. apply In_nth_error in H as [t H]. destruct (F _ _ _ H Hf) as (n & Hn & K). now rewrite (of_named _ _ _ Hn).
Qed.
Lemma orderly_empty o paths : orderly o (empty_vm paths).
Proof. split; cbn; try discriminate; try contradiction; intros [|t]; discriminate. Qed.

(** ** Loading ends *)

(** Going down the order, a call comes back, with or without an error, unless it panics (C13) or has undefined
    behaviour (C73); the types still go along with the order. *)
Definition ends_in_order {A} (o : order) (r : res vm A) : Prop :=
  match r with
  | Ok _ s' | Err _ s' => types_ordered o (c_types s')
  | NoFuel => False
  | _ => True
  end.

Lemma fine_ends {A} o R s (m : M vm A) Q : orderly o s -> fine o R s m Q -> ends_in_order o (m s).
Proof. intros W H. specialize (H W). unfold ends_in_order. destruct (m s); auto; apply ordered_of; tauto. Qed.

(** As stated C77 is false: [C77_references_refuted], [C77_base_refuted].  For all runtimes, all orders, all sets
    of images that follow them and all images of the set, a nesting of calls of [depth_needed] is enough. *)
Theorem C77_load_data_partial p fs paths s o top D level data fuel :
  history p fs paths s -> order_ok top o -> types_ordered o (c_types s) ->
  images_ordered p o fs s D level -> D data -> (depth_needed top (level data) <= fuel)%nat ->
  ends_in_order o (load_data fuel p fs data s).
Proof.
  intros H O T F Hd L. pose proof (orderly_of _ _ _ (proj1 (history_ok _ _ _ _ H)) T) as W.
  eapply fine_ends; [exact W|]. eapply (fs_load top o O p fs s D level F); [exact Hd|unfold depth_needed in L; lia|apply grows_refl].
Qed.
(** The same for a load by path and by name. *)
Theorem C77_load_path_partial p fs paths s o top D level d f fuel :
  history p fs paths s -> order_ok top o -> types_ordered o (c_types s) -> images_ordered p o fs s D level ->
  (forall data, fs d f = File data -> D data /\ (depth_needed top (level data) <= fuel)%nat) ->
  ends_in_order o (load_path fuel p fs (d, f) s).
Proof.
  intros H O T F Hd. unfold load_path. cbn [fst snd]. destruct (fs d f) as [| |x] eqn:E; [exact T|exact T|].
  destruct (Hd x eq_refl) as [Dx L]. exact (C77_load_data_partial _ _ _ _ _ _ _ _ _ _ H O T F Dx L).
Qed.
Theorem C77_load_assembly_partial p fs paths s o top D level n fuel :
  history p fs paths s -> order_ok top o -> types_ordered o (c_types s) -> images_ordered p o fs s D level ->
  (forall d f data, first_there (fun c => fs (fst c) (snd c) <> Missing) (candidates paths n) (d, f) -> fs d f = File data ->
     D data /\ (depth_needed top (level data) <= fuel)%nat) ->
  ends_in_order o (load_assembly fuel p fs n s).
Proof.
  intros H O T F Hd. pose proof (proj1 (proj2 (history_ok _ _ _ _ H))) as P.
  unfold load_assembly, bind, get_state, ok_or. rewrite P.
  destruct (resolve_assembly_name fs paths n) as [[d f]|] eqn:E; [|exact T].
  apply (C77_load_path_partial _ _ _ _ _ _ _ _ _ _ _ H O T F). intros data Ed. apply (Hd d f data); [now apply resolve_first|exact Ed].
Qed.
(** Starting a runtime. *)
Theorem C77_start_partial p fs paths o top D level rt con fuel :
  order_ok top o -> images_ordered p o fs (empty_vm paths) D level -> D rt -> D con ->
  (depth_needed top (level rt) <= fuel)%nat -> (depth_needed top (level con) <= fuel)%nat ->
  ends_in_order o (new_runtime fuel p fs paths rt con).
Proof.
  intros O F Dr Dc Lr Lc. unfold depth_needed in *. unfold new_runtime. apply (fine_ends o grows _ _ (fun _ _ => True)); [apply orderly_empty|].
  eapply (fn_bind o grows grows_trans); [eapply (fs_load top o O p fs _ D level F); [exact Dr|lia|apply grows_refl]|]. intros a s1 G1 _.
  eapply (fn_bind o grows grows_trans); [eapply (fs_load top o O p fs _ D level F); [exact Dc|lia|exact G1]|]. intros b s2 G2 _.
  do 11 (eapply (fn_bind o grows grows_trans);
    [apply fine_grows; eapply fn_weak; [eapply fs_looks; intro; apply lk_named with (o := o); assumption|]; intros; exact Logic.I|]; intros ? ? _ _).
  intro W. cbn. split; [destruct W; split; assumption|]. split; [|exact Logic.I].
  split; [reflexivity|auto|intros t n K; exact K].
Qed.
(** The size of a type and the question whether it is held by value. *)
Theorem C77_size_partial p fs paths s o top t fuel :
  history p fs paths s -> order_ok top o -> types_ordered o (c_types s) -> (t < List.length (c_types s))%nat ->
  (depth_needed top 0 <= fuel)%nat ->
  ends_in_order o (type_size fuel p t s) /\ ends_in_order o (is_reference_type fuel t s).
Proof.
  intros H O T Lt L. pose proof (orderly_of _ _ _ (proj1 (history_ok _ _ _ _ H)) T) as W. unfold depth_needed in L.
  pose proof (named_of _ _ Lt) as N. pose proof (oo_top _ _ O (name_of (c_types s) t)) as Ht. split.
  - pose proof (lk_size top o O p s W fuel t _ N ltac:(right; lia)) as K. unfold looks in K. unfold ends_in_order.
    destruct (type_size fuel p t s); auto; [destruct K as [-> _]|subst]; exact T.
  - pose proof (lk_reference top o O s fuel t _ W N ltac:(lia)) as K. unfold looks in K. unfold ends_in_order.
    destruct (is_reference_type fuel t s); auto; [destruct K as [-> _]|subst]; exact T.
Qed.

(** ** What goes round does not end *)

(** A set of images each of which leads to another one of the set: no depth of calls is enough.  An assembly
    counts as loaded only when all its references are. *)
Theorem C77_references_refuted p fs s (D : list byte -> Prop) :
  (forall data, D data -> exists x, leads_to p fs s data x /\ D x) ->
  forall fuel data, D data -> load_data fuel p fs data s = NoFuel.
Proof.
  intros C. induction fuel as [|fuel IH]; intros data Hd; [reflexivity|].
  destruct (C _ Hd) as (x & (md & row & n & pre & r & post & rn & d & f & Emd & [R0 Er] & Hn & El & Hpre & Hr & Nl & Ff & Ex) & Dx).
  cbn [load_data]. rewrite (bind_ok _ _ s md s) by (unfold lift; now rewrite Emd).
  rewrite (bind_ok _ _ s row s) by (now apply row_at_run).
  rewrite (bind_ok _ _ s n s) by (now rewrite (string_at_text _ _ _ Hn)). rewrite El. clear El.
  match goal with |- bind (iter_m ?g _) _ _ = _ => assert (X : iter_m g (pre ++ r :: post) s = NoFuel) end.
  2: unfold bind at 1; now rewrite X.
  induction pre as [|q pre IHp]; cbn [app iter_m].
  - unfold bind at 1. rewrite (bind_ok _ _ s rn s) by (now rewrite (string_at_text _ _ _ Hr)).
    rewrite (bind_ok _ _ s s s) by reflexivity.
    destruct (loaded (c_arena s) (c_assemblies s) rn) eqn:L; [apply loaded_spec in L; now elim Nl|].
    rewrite (bind_ok _ _ s (d, f) s).
    2: { pose proof (resolve_name_spec fs rn (c_paths s)) as Z. destruct (resolve_assembly_name fs (c_paths s) rn) as [c|].
         - now rewrite (first_unique _ _ _ _ Z Ff).
         - destruct Ff as (a & b & E1 & E2 & _). elim E2. apply Z. rewrite E1. apply in_elt. }
    cbn [fst snd]. rewrite Ex. unfold bind. now rewrite (IH x Dx).
  - destruct (Hpre q (or_introl eq_refl)) as (qn & Hq & Lq).
    rewrite (bind_ok _ _ s tt s); [apply IHp; intros y Hy; apply Hpre; now right|].
    rewrite (bind_ok _ _ s qn s) by (now rewrite (string_at_text _ _ _ Hq)). rewrite (bind_ok _ _ s s s) by reflexivity.
    now rewrite (loaded_is _ _ Lq).
Qed.

Definition ring_files : file_system := fun d f => if is_file d f "/lib" "Ring.dll" then File ring_image else Missing.
Lemma ring_started p : new_runtime 10 p ring_files demo_paths system_runtime system_console = Ok tt demo_disk.
Proof. destruct p; vm_compute; reflexivity. Qed.
Lemma ring_history p : history p ring_files demo_paths demo_disk.
Proof. exists 10%nat, system_runtime, system_console, demo_disk. split; [apply ring_started|apply later_now]. Qed.
Definition ring_md : metadata := ltac:(md_of ring_image).
Lemma ring_md_read p : read_metadata p ring_image tt = Ok ring_md tt.
Proof. destruct p; vm_compute; reflexivity. Qed.
(** A library that refers to itself. *)
Example C77_references_example p : history p ring_files demo_paths demo_disk /\
  leads_to p ring_files demo_disk ring_image ring_image /\
  (forall fuel, load_data fuel p ring_files ring_image demo_disk = NoFuel) /\
  (forall fuel, load_assembly fuel p ring_files (bytes_of_string "Ring") demo_disk = NoFuel).
Proof.
  split; [apply ring_history|].
  assert (L : leads_to p ring_files demo_disk ring_image ring_image).
  { eexists ring_md, _, _, [_], _, [], (bytes_of_string "Ring"), (bytes_of_string "/lib"), (bytes_of_string "Ring.dll").
    split; [apply ring_md_read|]. split; [row_here|]. split; [txt|]. split; [vm_compute; reflexivity|]. split.
    { intros q [<-|[]]. eexists. split; [txt|]. apply loaded_spec. vm_compute. reflexivity. }
    split; [txt|]. split; [|split; [|reflexivity]].
    - intro K. apply loaded_is in K. vm_compute in K. discriminate.
    - eexists [_; _], _. split; [reflexivity|]. split; [vm_compute; discriminate|]. intros x [<-|[<-|[]]] K; apply K; reflexivity. }
  assert (F : forall fuel, load_data fuel p ring_files ring_image demo_disk = NoFuel).
  { intro fuel. apply (C77_references_refuted p ring_files demo_disk (eq ring_image)); [|reflexivity].
    intros data <-. exists ring_image. split; [exact L|reflexivity]. }
  split; [exact L|]. split; [exact F|]. intro fuel. unfold load_assembly.
  rewrite (bind_ok _ _ _ demo_disk demo_disk) by reflexivity.
  rewrite (bind_ok _ _ _ (bytes_of_string "/lib", bytes_of_string "Ring.dll") demo_disk) by reflexivity.
  apply F.
Qed.

(** A set of types each of which takes the size of another one of the set has no sizes. *)
Theorem C77_sizes_refuted p fs paths s (X : tref -> Prop) :
  history p fs paths s -> (forall t, X t -> exists u, needs (c_types s) t u /\ X u) ->
  forall fuel t n s', X t -> type_size fuel p t s <> Ok n s'.
Proof.
  intros H C fuel t n s' Ht E. destruct (type_size_run _ _ (proj1 (history_ok _ _ _ _ H)) _ _ _ _ E) as (_ & m & Sz & _). clear E.
  revert Ht. set (ts := c_types s) in *.
  refine (proj1 (sizes_ind ts (fun t _ => ~ X t) (fun l _ => forall f, In f l -> f_static f = false -> value_type ts (f_type f) -> ~ X (f_type f))
    (fun t _ => value_type ts t -> ~ X t) _ _ _ _ _ _ _ _) t m Sz); clear t m Sz n.
  - intros t k W Ht. destruct (C _ Ht) as (u & [ti _ Nw _|ti f _ Nw _ _ _ _] & _); exact (Nw _ W).
  - intros t ti n Et Nw B _ IH Ht. destruct (C _ Ht) as (u & [ti' Et' _ B'|ti' f Et' _ Hf Sf <- V] & Hu); rewrite Et in Et'; injection Et' as <-.
    + congruence.
    + exact (IH f Hf Sf V Hu).
  - intros t ti b n m Et Nw B _ IH _ IHb Ht. destruct (C _ Ht) as (u & [ti' Et' _ B'|ti' f Et' _ Hf Sf <- V] & Hu); rewrite Et in Et'; injection Et' as <-.
    + rewrite B in B'. injection B' as <-. exact (IHb Hu).
    + exact (IH f Hf Sf V Hu).
  - intros f [].
  - intros f l n Sf _ IH g [<-|Hg] Sg V; [congruence|exact (IH g Hg Sg V)].
  - intros f l n k Sf _ IHs _ IH g [<-|Hg] Sg V; [exact (IHs V)|exact (IH g Hg Sg V)].
  - intros t Nv V. now elim Nv.
  - intros t n V _ IH _. exact IH.
Qed.

(** A struct with a field of its own type: when the field is laid out it is not known yet that it is a struct,
    because its base is resolved later.  The image loads, and then the size of the struct does not end. *)
Definition demo_sponge : vm := Eval vm_compute in state_of (load_data 10 Debug no_files sponge_image demo_vm).
Lemma demo_sponge_loaded p : load_data 10 p no_files sponge_image demo_vm = Ok 2%nat demo_sponge.
Proof. destruct p; vm_compute; reflexivity. Qed.
Lemma demo_sponge_history p : history p no_files [] demo_sponge.
Proof.
  exists 10%nat, system_runtime, system_console, demo_vm. split; [apply demo_vm_started|].
  eapply later_then; [apply later_now|]. eapply ev_load. apply demo_sponge_loaded.
Qed.
Example C77_sizes_example p : history p no_files [] demo_sponge /\ needs (c_types demo_sponge) 22%nat 22%nat /\
  forall fuel n s', type_size fuel p 22%nat demo_sponge <> Ok n s'.
Proof.
  pose proof (demo_sponge_history p) as H. split; [exact H|].
  assert (N : needs (c_types demo_sponge) 22%nat 22%nat).
  { destruct (nth_error (c_types demo_sponge) 22%nat) as [ti|] eqn:E; [|vm_compute in E; discriminate].
    destruct (ti_fields ti) as [|f l] eqn:Ef; [vm_compute in E; injection E as <-; discriminate|].
    apply (needs_field _ _ _ ti f); [exact E| |rewrite Ef; now left| | |].
    - intros k (x & I & (ti' & E' & Nm)). vm_compute in E'. injection E' as <-. cbn in I.
      repeat (destruct I as [I|I]; [injection I as <- <-; vm_compute in Nm; discriminate|]). destruct I.
    - vm_compute in E. injection E as <-. vm_compute in Ef. injection Ef as <- _. reflexivity.
    - vm_compute in E. injection E as <-. vm_compute in Ef. injection Ef as <- _. reflexivity.
    - apply (rooted_class _ _ _ 2%nat).
      + eapply by_base; [vm_compute; reflexivity|reflexivity|]. eapply by_base; [vm_compute; reflexivity|reflexivity|]. apply itself.
      + eexists. split; vm_compute; reflexivity. }
  split; [exact N|]. intros fuel n s'. apply (C77_sizes_refuted p no_files [] demo_sponge (eq 22%nat) H); [|reflexivity].
  intros t <-. exists 22%nat. auto.
Qed.

(** A class that extends itself: its image does not load in any depth of calls. *)
Definition knot_md : metadata := ltac:(md_of knot_image).
Lemma knot_md_read p : read_metadata p knot_image tt = Ok knot_md tt.
Proof. destruct p; vm_compute; reflexivity. Qed.
Definition knot_program (p : profile) : M vm unit :=
  load_types p knot_md 2%nat 1%nat 0 ;;; resolve_base p knot_md 21%nat 0 ;;; resolve_kind p knot_md 21%nat 0.
Definition demo_knot : vm := Eval vm_compute in state_of (knot_program Debug
  (set_arena demo_vm (c_arena demo_vm ++ [Some (mkAssembly (bytes_of_string "Knot") [] None (m_user_strings knot_md) [] [] [] [])]))).
Lemma knot_size p : forall fuel, type_size fuel p 21%nat demo_knot = NoFuel.
Proof.
  induction fuel as [|fuel IH]; [reflexivity|]. cbn [type_size].
  rewrite (bind_ok _ _ demo_knot None demo_knot) by (vm_compute; reflexivity).
  destruct (nth_error (c_types demo_knot) 21%nat) as [ti|] eqn:E; [|vm_compute in E; discriminate].
  rewrite (bind_ok _ _ demo_knot ti demo_knot) by (unfold the_type; now rewrite E).
  vm_compute in E. injection E as <-. cbn [ti_fields ti_base filter fold_m].
  rewrite (bind_ok _ _ demo_knot 0 demo_knot) by reflexivity. unfold bind. now rewrite IH.
Qed.
Lemma knot_contents p fuel s : 
  s = set_arena demo_vm (c_arena demo_vm ++ [Some (mkAssembly (bytes_of_string "Knot") [] None (m_user_strings knot_md) [] [] [] [])]) ->
  load_contents fuel p knot_md 2%nat s = NoFuel.
Proof.
  intros ->. unfold load_contents.
  match goal with |- bind ?m _ ?s = _ => destruct (m s) as [ts s1|? ?|?|?|] eqn:E1 end;
    [|exfalso; destruct p; vm_compute in E1; discriminate..].
  rewrite (bind_ok _ _ _ _ _ E1).
  assert (ts = [21%nat]) as -> by (destruct p; vm_compute in E1; injection E1 as <- _; reflexivity).
  cbn [resolve_types]. unfold resolve.
  destruct (resolve_base p knot_md 21%nat 0 s1) as [[] s2|? ?|?|?|] eqn:E2;
    [|exfalso; destruct p; vm_compute in E1; injection E1 as <-; vm_compute in E2; discriminate..].
  destruct (resolve_kind p knot_md 21%nat 0 s2) as [[] s3|? ?|?|?|] eqn:E3;
    [|exfalso; destruct p; vm_compute in E1; injection E1 as <-; vm_compute in E2; injection E2 as <-; vm_compute in E3; discriminate..].
  assert (s3 = demo_knot) as ->.
  { destruct p; vm_compute in E1; injection E1 as <-; vm_compute in E2; injection E2 as <-; vm_compute in E3; injection E3 as <-; reflexivity. }
  assert (F : resolve_fields fuel p knot_md 21%nat 0 demo_knot = NoFuel).
  { unfold resolve_fields. destruct (nth_error (tb_type_def (m_tables knot_md)) 0) as [row|] eqn:Er; [|discriminate].
    rewrite (bind_ok _ _ _ row demo_knot) by (destruct p; vm_compute; vm_compute in Er; injection Er as <-; reflexivity).
    vm_compute in Er. injection Er as <-. cbv zeta. cbn [td_field_list].
    rewrite (bind_ok _ _ _ 0 demo_knot) by (destruct p; vm_compute; reflexivity).
    rewrite (bind_ok _ _ _ tt demo_knot) by (vm_compute; reflexivity).
    rewrite (bind_ok _ _ _ 1 demo_knot) by (destruct p; vm_compute; reflexivity).
    destruct (nth_error (c_types demo_knot) 21%nat) as [ti|] eqn:E; [|vm_compute in E; discriminate].
    rewrite (bind_ok _ _ demo_knot ti demo_knot) by (unfold the_type; now rewrite E).
    vm_compute in E. injection E as <-. cbn [ti_base]. unfold bind. now rewrite knot_size. }
  assert (G : (resolve_base p knot_md 21%nat 0 ;;; resolve_kind p knot_md 21%nat 0 ;;; resolve_fields fuel p knot_md 21%nat 0 ;;; resolve_methods p knot_md 21%nat 0) s1 = NoFuel).
  { rewrite (bind_ok _ _ _ _ _ E2), (bind_ok _ _ _ _ _ E3). unfold bind. now rewrite F. }
  unfold bind at 1. unfold bind at 1. now rewrite G.
Qed.
Theorem C77_base_refuted p : history p no_files [] demo_vm /\ read_metadata p knot_image tt = Ok knot_md tt /\
  (exists row, row_of (tb_type_def (m_tables knot_md)) 1 row /\ defines knot_md row (bytes_of_string "Knot.Loop") /\
     extends knot_md row (Some (bytes_of_string "Knot.Loop"))) /\
  forall fuel, load_data fuel p no_files knot_image demo_vm = NoFuel.
Proof.
  split; [apply demo_vm_history|]. split; [apply knot_md_read|]. split.
  { eexists. split; [row_here|]. split; [|exists InTypeDef, 1; split; [reflexivity|]].
    - exists (bytes_of_string "Loop"), (bytes_of_string "Knot"). split; [txt|]. split; [txt|reflexivity].
    - change (bytes_of_string "Knot.Loop") with (qualified (bytes_of_string "Loop") (bytes_of_string "Knot")). row_name_here. }
  intros [|fuel]; [reflexivity|]. cbn [load_data]. rewrite (bind_ok _ _ demo_vm knot_md demo_vm) by (unfold lift; now rewrite knot_md_read).
  destruct (nth_error (tb_assembly (m_tables knot_md)) 0) as [row|] eqn:Er; [|discriminate].
  rewrite (bind_ok _ _ demo_vm row demo_vm) by (apply row_at_run; [cbn; lia|exact Er]).
  rewrite (bind_ok _ _ demo_vm (bytes_of_string "Knot") demo_vm) by (vm_compute in Er; injection Er as <-; vm_compute; reflexivity).
  rewrite (bind_ok _ _ demo_vm tt demo_vm) by (vm_compute; reflexivity).
  rewrite (bind_ok _ _ demo_vm [] demo_vm) by (vm_compute; reflexivity).
  rewrite (bind_ok _ _ demo_vm [] demo_vm) by (vm_compute; reflexivity).
  unfold bind at 1. unfold new_assembly at 1. unfold drop_on_error.
  change (List.length (c_arena demo_vm)) with 2%nat. now rewrite knot_contents by reflexivity.
Qed.

(** ** An order for the example images *)

Definition names_at (md : metadata) (n ns : N) : option name :=
  match string_at md n, string_at md ns with Some a, Some b => Some (qualified a b) | _, _ => None end.
Definition named_at (md : metadata) (r : row_ref) : option name :=
  if ref_index r =? 0 then None else
  match ref_table r with
  | TTypeDef => match nth_error (tb_type_def (m_tables md)) (N.to_nat (ref_index r - 1)) with
                | Some d => names_at md (td_name d) (td_namespace d) | None => None end
  | TTypeRef => match nth_error (tb_type_ref (m_tables md)) (N.to_nat (ref_index r - 1)) with
                | Some d => names_at md (tr_name d) (tr_namespace d) | None => None end
  | _ => None
  end.
Lemma named_at_is md tab k n : row_name md tab k n -> named_at md (named_ref tab k) = Some n.
Proof.
  intros [k' d a b L E A B|k' d a b L E A B]; unfold named_at, named_ref, names_at; cbn [ref_table ref_index];
    (destruct (N.eqb_spec k' 0) as [Z|_]; [lia|]; rewrite E, (string_at_text _ _ _ A), (string_at_text _ _ _ B); reflexivity).
Qed.
Fixpoint element_at (md : metadata) (e : element_type) : option name :=
  let simply x := option_map bytes_of_string (simple_name x) in
  match e with
  | EValueType r | EClass r => named_at md r
  | ESzArray e => option_map (fun n => n ++ bytes_of_string "[]") (element_at md e)
  | EVoid => simply PVoid | EBool => simply PBoolean | EChar => simply PChar | ESByte => simply PI1 | EByte => simply PU1
  | EShort => simply PI2 | EUShort => simply PU2 | EInt => simply PI4 | EUInt => simply PU4 | ELong => simply PI8
  | EULong => simply PU8 | EFloat => simply PR4 | EDouble => simply PR8 | EString => simply PString | EIntPtr => simply PI
  | EUIntPtr => simply PU | EObject => simply PObject
  | _ => None
  end.
Lemma element_at_is md t n : type_name md t n -> element_at md (api_type t) = Some n.
Proof.
  induction 1 as [x n E|tab k n H|tab k n H|t n H IH]; cbn [api_type element_at].
  - destruct x; cbn in E; try discriminate; injection E as <-; reflexivity.
  - now apply named_at_is.
  - now apply named_at_is.
  - now rewrite IH.
Qed.

Definition extend_check (o : order) (fn b : name) : bool :=
  Nat.ltb (height o b) (height o fn) && (negb (SpecEnds.by_value o b) || SpecEnds.by_value o fn).
Lemma extend_checked o fn b : extend_check o fn b = true -> may_extend o fn b.
Proof.
  intro H. apply andb_prop in H as [H K]. apply Nat.ltb_lt in H. split; [exact H|]. intro E. rewrite E in K. exact K.
Qed.
Definition hold_check (o : order) (fn n : name) : bool :=
  negb (SpecEnds.by_value o n) || existsb (fun w => bytes_eqb (bytes_of_string (fst w)) n) widths || Nat.ltb (height o n) (height o fn).
Lemma hold_checked o fn n : hold_check o fn n = true -> may_hold o fn n.
Proof.
  intros H E. unfold hold_check in H. rewrite E in H. cbn [negb orb] in H. apply orb_prop in H as [H|H]; [left|right; now apply Nat.ltb_lt].
  apply existsb_exists in H as ([x k] & Hx & Ex). apply bytes_eqb_spec in Ex. exists x, k. split; [exact Hx|now symmetry].
Qed.
Definition types_check (o : order) (ts : list type_info) : bool :=
  forallb (fun ti => match ti_base ti with Some b => extend_check o (ti_full_name ti) (name_of ts b) | None => true end &&
    forallb (fun i => negb (bytes_eqb (name_of ts i) a_value_type) || SpecEnds.by_value o (ti_full_name ti)) (ti_interfaces ti) &&
    forallb (fun f => f_static f || hold_check o (ti_full_name ti) (name_of ts (f_type f))) (ti_fields ti)) ts.
Lemma types_checked o ts : types_check o ts = true -> types_ordered o ts.
Proof.
  intro H. unfold types_check in H. rewrite forallb_forall in H. split.
  - intros ti b I B. specialize (H _ I). rewrite B in H. apply andb_prop in H as [H _]. apply andb_prop in H as [H _]. now apply extend_checked.
  - intros ti i I Hi E. specialize (H _ I). apply andb_prop in H as [H _]. apply andb_prop in H as [_ H]. rewrite forallb_forall in H.
    specialize (H _ Hi). rewrite (proj2 (bytes_eqb_spec _ _) E) in H. exact H.
  - intros ti f I Hf S. specialize (H _ I). apply andb_prop in H as [_ H]. rewrite forallb_forall in H.
    specialize (H _ Hf). rewrite S in H. now apply hold_checked.
Qed.
Definition field_check (p : profile) (o : order) (md : metadata) (fn : name) (f : field_row) : bool :=
  fa_is_static (fd_attributes f) ||
  match blob_heap_reader p (m_blob md) (fd_signature f) with
  | Ok r _ => match read_field_signature p r with
              | Ok e _ => match element_at md e with Some n => hold_check o fn n | None => true end
              | _ => true end
  | _ => true end.
Definition image_check (p : profile) (o : order) (md : metadata) : bool :=
  forallb (fun row => match names_at md (td_name row) (td_namespace row), named_at md (td_extends row) with
                      | Some fn, Some b => extend_check o fn b | _, _ => true end) (tb_type_def (m_tables md)) &&
  forallb (fun j => match nth_error (tb_type_def (m_tables md)) j with
                    | Some row => match names_at md (td_name row) (td_namespace row) with
                                  | Some fn => forallb (field_check p o md fn) (rows_of (map td_field_list (tb_type_def (m_tables md))) j (tb_field (m_tables md)))
                                  | None => true end
                    | None => true end) (seq 0 (List.length (tb_type_def (m_tables md)))) &&
  forallb (fun row => match named_at md (named_ref InTypeDef (ii_class row)), named_at md (ii_interface row) with
                      | Some c, Some n => negb (bytes_eqb n a_value_type) || SpecEnds.by_value o c | _, _ => true end) (tb_interface_impl (m_tables md)).
Lemma defines_at md row fn : defines md row fn -> names_at md (td_name row) (td_namespace row) = Some fn.
Proof. intros (a & b & A & B & ->). unfold names_at. now rewrite (string_at_text _ _ _ A), (string_at_text _ _ _ B). Qed.
Lemma image_checked p o md : image_check p o md = true -> image_ordered p o md.
Proof.
  intro H. unfold image_check in H. apply andb_prop in H as [H H3]. apply andb_prop in H as [H1 H2].
  rewrite forallb_forall in H1, H2, H3. split.
  - intros row fn b I Hd (tab & k & E & Hn). specialize (H1 _ I). rewrite (defines_at _ _ _ Hd), E, (named_at_is _ _ _ _ Hn) in H1. now apply extend_checked.
  - intros j row fn f n E Hd Hf S (r & r' & t & Er & Es & Ht).
    assert (L : In j (seq 0 (List.length (tb_type_def (m_tables md))))) by (apply in_seq; apply nth_lt in E; lia).
    specialize (H2 _ L). rewrite E, (defines_at _ _ _ Hd) in H2. rewrite forallb_forall in H2. specialize (H2 _ Hf).
    unfold field_check in H2. rewrite S, Er, Es, (element_at_is _ _ _ Ht) in H2. now apply hold_checked.
  - intros row c tab k I Hc E Hv. specialize (H3 _ I). rewrite (named_at_is _ _ _ _ Hc), E, (named_at_is _ _ _ _ Hv) in H3.
    rewrite (proj2 (bytes_eqb_spec a_value_type a_value_type) eq_refl) in H3. exact H3.
Qed.

Definition zoo_order : order := {|
  height := entry 2%nat [("System.Object", 0%nat); ("System.ValueType", 1%nat); ("System.Array", 1%nat); ("Zoo.Base", 3%nat); ("Zoo.Derived", 4%nat)]%string;
  SpecEnds.by_value := entry false (("System.ValueType"%string, true) :: ("System.Void"%string, true) :: ("Zoo.Pair"%string, true) ::
    map (fun w => (fst w, true)) widths) |}.
Lemma zoo_order_ok : order_ok 4%nat zoo_order.
Proof.
  split.
  - intro n. apply (entry_bound (fun x => (x <= 4)%nat)); [lia|]. repeat constructor; cbn; lia.
  - reflexivity.
  - intro n. unfold zoo_order. cbn [height SpecEnds.by_value].
    rewrite !(entry_else _ _ (vector_of n)) by (repeat constructor; apply not_vector; vm_compute; discriminate).
    split; [vm_compute; lia|vm_compute; discriminate].
Qed.
(** The client and the library that it refers to, each on its level. *)
Definition zoo_set (data : list byte) : Prop := data = client_image \/ data = zoo_image.
Definition zoo_level (data : list byte) : nat := if bytes_eqb data client_image then 1%nat else 0%nat.
Lemma one_read {A} (r : res unit A) a b x y : r = Ok a x -> r = Ok b y -> a = b.
Proof. congruence. Qed.
Lemma zoo_ordered p : images_ordered p zoo_order demo_files demo_disk zoo_set zoo_level.
Proof.
  split.
  - intros data [->| ->]; vm_compute; reflexivity.
  - intros data md [->| ->] E.
    + rewrite <- (one_read _ _ _ _ _ (client_md_read p) E). apply image_checked. destruct p; vm_compute; reflexivity.
    + rewrite <- (one_read _ _ _ _ _ (zoo_md_read p) E). apply image_checked. destruct p; vm_compute; reflexivity.
  - intros data md row n d f x [->| ->] E I Hn Nl Ff Ex.
    + rewrite <- (one_read _ _ _ _ _ (client_md_read p) E) in I, Hn. apply string_at_text in Hn. vm_compute in I.
      destruct I as [<-|[<-|[]]]; vm_compute in Hn; injection Hn as <-.
      * elim Nl. apply loaded_spec. vm_compute. reflexivity.
      * pose proof (resolve_name_spec demo_files (bytes_of_string "Zoo") demo_paths) as R.
        destruct (resolve_assembly_name demo_files demo_paths (bytes_of_string "Zoo")) as [c|] eqn:Ec; [|vm_compute in Ec; discriminate].
        pose proof (first_unique _ _ _ _ R Ff) as ->. vm_compute in Ec. injection Ec as <- <-.
        assert (x = zoo_image) as -> by (vm_compute in Ex; injection Ex as <-; reflexivity).
        split; [now right|vm_compute; lia].
    + rewrite <- (one_read _ _ _ _ _ (zoo_md_read p) E) in I, Hn. apply string_at_text in Hn. vm_compute in I.
      destruct I as [<-|[<-|[]]]; vm_compute in Hn; injection Hn as <-; elim Nl; apply loaded_spec; vm_compute; reflexivity.
Qed.
Lemma demo_disk_history p : history p demo_files demo_paths demo_disk.
Proof. exists 10%nat, system_runtime, system_console, demo_disk. split; [apply demo_disk_started|apply later_now]. Qed.
Example C77_load_example p fuel : (depth_needed 4 1 <= fuel)%nat ->
  history p demo_files demo_paths demo_disk /\ order_ok 4%nat zoo_order /\ types_ordered zoo_order (c_types demo_disk) /\
  images_ordered p zoo_order demo_files demo_disk zoo_set zoo_level /\ zoo_set client_image /\
  ends_in_order zoo_order (load_data fuel p demo_files client_image demo_disk).
Proof.
  intro L. pose proof (demo_disk_history p) as H.
  assert (T : types_ordered zoo_order (c_types demo_disk)) by (apply types_checked; vm_compute; reflexivity).
  split; [exact H|]. split; [apply zoo_order_ok|]. split; [exact T|]. split; [apply zoo_ordered|]. split; [now left|].
  apply (C77_load_data_partial p _ _ _ _ 4 zoo_set zoo_level _ _ H zoo_order_ok T (zoo_ordered p)); [now left|].
  replace (zoo_level client_image) with 1%nat by (vm_compute; reflexivity). exact L.
Qed.
Example C77_load_assembly_example d f data :
  first_there (fun c => demo_files (fst c) (snd c) <> Missing) (candidates demo_paths (bytes_of_string "Client")) (d, f) ->
  demo_files d f = File data -> zoo_set data /\ (depth_needed 4 (zoo_level data) <= 12)%nat.
Proof.
  intros Ff Ex. pose proof (resolve_name_spec demo_files (bytes_of_string "Client") demo_paths) as R.
  destruct (resolve_assembly_name demo_files demo_paths (bytes_of_string "Client")) as [c|] eqn:Ec; [|vm_compute in Ec; discriminate].
  pose proof (first_unique _ _ _ _ R Ff) as ->. vm_compute in Ec. injection Ec as <- <-.
  assert (data = client_image) as -> by (vm_compute in Ex; injection Ex as <-; reflexivity).
  split; [now left|vm_compute; lia].
Qed.
(** The built-in images. *)
Definition core_set (data : list byte) : Prop := data = system_runtime \/ data = system_console.
Example C77_start_example p fuel : (depth_needed 4 0 <= fuel)%nat ->
  images_ordered p zoo_order no_files (empty_vm []) core_set (fun _ => 0%nat) /\
  ends_in_order zoo_order (new_runtime fuel p no_files [] system_runtime system_console).
Proof.
  intro L. assert (F : images_ordered p zoo_order no_files (empty_vm []) core_set (fun _ => 0%nat)).
  { split.
    - intros data [->| ->]; vm_compute; reflexivity.
    - intros data md [->| ->] E.
      + assert (E' : read_metadata p system_runtime tt = Ok runtime_md tt) by (destruct p; vm_compute; reflexivity).
        rewrite <- (one_read _ _ _ _ _ E' E). apply image_checked. destruct p; vm_compute; reflexivity.
      + assert (E' : read_metadata p system_console tt = Ok console_md tt) by (destruct p; vm_compute; reflexivity).
        rewrite <- (one_read _ _ _ _ _ E' E). apply image_checked. destruct p; vm_compute; reflexivity.
    - intros data md row n d f x _ _ _ _ _ (pre & post & E & _) _. destruct pre; discriminate. }
  split; [exact F|]. apply (C77_start_partial p no_files [] _ 4 core_set (fun _ => 0%nat)); auto using zoo_order_ok; [now left|now right].
Qed.
Example C77_size_example p : ends_in_order zoo_order (type_size 11 p 2%nat demo_disk).
Proof.
  apply (C77_size_partial p demo_files demo_paths demo_disk zoo_order 4 2%nat 11%nat); [apply demo_disk_history|apply zoo_order_ok| | |].
  - apply types_checked. vm_compute. reflexivity.
  - vm_compute. lia.
  - vm_compute. lia.
Qed.

Print Assumptions C77_load_data_partial.
Print Assumptions C77_load_path_partial.
Print Assumptions C77_load_assembly_partial.
Print Assumptions C77_start_partial.
Print Assumptions C77_size_partial.
Print Assumptions C77_references_refuted.
Print Assumptions C77_sizes_refuted.
Print Assumptions C77_base_refuted.

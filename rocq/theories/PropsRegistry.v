(** Properties C31-C33: type identifiers, lookup by name and array types, for every history of a
    runtime, and the stability of what has been loaded. *)
From Coq Require Import NArith String List Bool Lia Arith.
From Coq.Strings Require Import Byte.
From Verif Require Import Base BaseFacts Runtime Loader SpecRuntime RuntimeInv SpecHistory HistoryProofs DemoImages DemoStates.
Import ListNotations.
Open Scope N_scope.

(** ** C31 *)

(** In a runtime that has been used in any way and has at most [2^32] types, the identifier of a
    type is its position in the list of types, so it finds that type and no other.  Missing for
    the full property: a release build with more types, see [C31_identifiers_refuted]. *)
Theorem C31_identifiers_partial p fs paths s :
  history p fs paths s -> len (c_types s) <= 2 ^ 32 ->
  (forall i t, nth_error (c_types s) i = Some t ->
     nth_error (c_types s) (N.to_nat (ti_id t)) = Some t) /\
  (forall i j t u, nth_error (c_types s) i = Some t -> nth_error (c_types s) j = Some u ->
     i <> j -> ti_id t <> ti_id u).
Proof.
  intros H Hle. destruct (history_ok _ _ _ _ H) as (W & _).
  assert (Id : forall i t, nth_error (c_types s) i = Some t -> ti_id t = N.of_nat i).
  { intros i t E. rewrite (ids_ok _ _ W _ _ E). apply N.mod_small. pose proof (nth_lt _ _ _ E). unfold len in Hle. lia. }
  split.
  - intros i t E. now rewrite (Id _ _ E), Nat2N.id.
  - intros i j t u E E'. rewrite (Id _ _ E), (Id _ _ E'). lia.
Qed.

(** A debug build never gets past [2^32] types, so there the property holds without condition. *)
Theorem C31_identifiers_debug fs paths s :
  history Debug fs paths s ->
  (forall i t, nth_error (c_types s) i = Some t ->
     nth_error (c_types s) (N.to_nat (ti_id t)) = Some t) /\
  (forall i j t u, nth_error (c_types s) i = Some t -> nth_error (c_types s) j = Some u ->
     i <> j -> ti_id t <> ti_id u).
Proof.
  intro H. apply (C31_identifiers_partial Debug fs paths); [exact H|].
  destruct (history_ok _ _ _ _ H) as (W & _). pose proof (bound_ok _ _ W eq_refl). lia.
Qed.

Example C31_identifiers_ex p : history p no_files [] demo_app /\
  len (c_types demo_app) = 27 /\
  nth_error (map ti_full_name (c_types demo_app)) 26 = Some (bytes_of_string "System.Int32[]").
Proof. split; [apply demo_app_history|]. destruct p; vm_compute; auto. Qed.

(** In a release build the identifiers start again at zero after [2^32] types. *)
Lemma longest_name : forall ts : list type_info, ts <> [] ->
  exists i t, nth_error ts i = Some t /\
    forall u, In u ts -> (List.length (ti_full_name u) <= List.length (ti_full_name t))%nat.
Proof.
  induction ts as [|a ts IH]; [congruence|]. intros _. destruct ts as [|b ts].
  - exists 0%nat, a. split; [reflexivity|]. intros u [<-|[]]. lia.
  - destruct IH as (i & t & E & H); [discriminate|].
    destruct (Nat.le_gt_cases (List.length (ti_full_name a)) (List.length (ti_full_name t))) as [L|L].
    + exists (S i), t. split; [exact E|]. intros u [<-|Hu]; auto.
    + exists 0%nat, a. split; [reflexivity|]. intros u [<-|Hu]; [lia|]. specialize (H u Hu). lia.
Qed.

Lemma one_more fs s : consistent Release s -> c_types s <> [] ->
  exists s', event Release fs s s' /\ List.length (c_types s') = S (List.length (c_types s)).
Proof.
  intros W Hne. destruct (longest_name _ Hne) as (i & t & E & Hmax).
  assert (U : map_get bytes_eqb (ti_full_name t ++ bytes_of_string "[]") (c_type_map s) = None).
  { pose proof (map_ok _ _ W (ti_full_name t ++ bytes_of_string "[]")) as M.
    destruct (map_get bytes_eqb _ _) as [j|]; [|reflexivity]. exfalso.
    destruct M as [(u & Eu & Nu) _]. apply nth_error_In in Eu. apply Hmax in Eu. rewrite Nu, app_length in Eu. cbn in Eu. lia. }
  assert (X : exists u s', array_of Release i s = Ok u s' /\ List.length (c_types s') = S (List.length (c_types s))).
  { unfold array_of, bind, the_type. rewrite E. unfold get_type. rewrite U. unfold next_type_id.
    assert (A : exists k, u_add Release 32 (c_next_id s) 1 = Some k) by (unfold u_add; destruct (_ <? _); eauto).
    destruct A as [k ->]. cbn. eexists _, _. split; [reflexivity|]. cbn. now rewrite length_snoc. }
  destruct X as (u & s' & X & L). exists s'. split; [|exact L]. eapply ev_array. exact X.
Qed.

Lemma many_more fs s : consistent Release s -> c_types s <> [] ->
  forall n, exists s', later Release fs s s' /\ List.length (c_types s') = (n + List.length (c_types s))%nat.
Proof.
  intros W Hne. induction n as [|n (s1 & L & E)]; [exists s; split; [constructor|reflexivity]|].
  destruct (later_ok _ _ _ _ L W) as [W1 _].
  assert (Hne1 : c_types s1 <> []).
  { intro Hnil. rewrite Hnil in E. cbn in E. destruct (c_types s); [congruence|cbn in E; lia]. }
  destruct (one_more fs s1 W1 Hne1) as (s2 & Ev & E2). exists s2. split; [econstructor; eauto|lia].
Qed.

Theorem C31_identifiers_refuted : exists s i j t u,
  history Release no_files [] s /\ nth_error (c_types s) i = Some t /\
  nth_error (c_types s) j = Some u /\ i <> j /\ ti_id t = ti_id u.
Proof.
  destruct (history_ok _ _ _ _ (demo_vm_history Release)) as (W & _).
  assert (Hne : c_types demo_vm <> []) by (vm_compute; discriminate).
  destruct (many_more no_files _ W Hne (N.to_nat (2 ^ 32))) as (s & L & E).
  destruct (later_ok _ _ _ _ L W) as [Ws _].
  assert (Hpos : (0 < List.length (c_types demo_vm))%nat).
  { destruct (c_types demo_vm); [congruence|cbn; lia]. }
  destruct (nth_some (c_types s) 0) as [t Et]; [lia|].
  destruct (nth_some (c_types s) (N.to_nat (2 ^ 32))) as [u Eu]; [lia|].
  exists s, 0%nat, (N.to_nat (2 ^ 32)), t, u.
  split; [|split; [exact Et|split; [exact Eu|split]]].
  - exists 10%nat, system_runtime, system_console, demo_vm. split; [apply demo_vm_started|exact L].
  - intro X. apply (f_equal N.of_nat) in X. rewrite N2Nat.id in X. discriminate X.
  - rewrite (ids_ok _ _ Ws _ _ Et), (ids_ok _ _ Ws _ _ Eu), N2Nat.id. reflexivity.
Qed.

(** Whatever happens later, a registered type stays where it is and as it is: no load and no execution,
    whether it succeeds or fails, changes anything about a type, an assembly or the list of loaded
    assemblies that was there before, and console output is only added to. *)
Theorem C31_registered_types_stay p fs paths s s' :
  history p fs paths s -> later p fs s s' ->
  (exists l, c_types s' = c_types s ++ l) /\
  (exists l, c_assemblies s' = c_assemblies s ++ l) /\
  (forall a ai, nth_error (c_arena s) a = Some (Some ai) -> nth_error (c_arena s') a = Some (Some ai)) /\
  c_primitives s' = c_primitives s /\ (exists l, c_output s' = c_output s ++ l).
Proof.
  intros H L. destruct (history_ok _ _ _ _ H) as (W & _). destruct (later_ok _ _ _ _ L W) as [_ [e1 e2 e3 e4 e5 e6]].
  repeat split; auto. intros a ai E. destruct e6 as [l ->]. rewrite nth_error_app1; [exact E|]. exact (nth_lt _ _ _ E).
Qed.

Example C31_registered_types_stay_ex p : history p no_files [] demo_vm /\
  later p no_files demo_vm demo_app /\ len (c_types demo_vm) = 21.
Proof.
  split; [apply demo_vm_history|]. split; [|destruct p; vm_compute; reflexivity].
  eapply later_then; [apply later_now|]. eapply ev_load. apply demo_app_loaded.
Qed.

(** Nothing in the registries points to a type that is not registered: bases, interfaces, field
    types, return types, parameter types, local variables and catch clauses. *)
Theorem C31_no_dangling_types p fs paths s :
  history p fs paths s ->
  Forall (v_type (List.length (c_types s)) (List.length (c_arena s))) (c_types s) /\
  (forall a ai, nth_error (c_arena s) a = Some (Some ai) -> v_assembly (List.length (c_types s)) ai) /\
  Forall (alive s) (c_assemblies s).
Proof. intro H. destruct (history_ok _ _ _ _ H) as ([] & _). auto. Qed.
Example C31_no_dangling_types_ex p : history p no_files [] demo_app.
Proof. apply demo_app_history. Qed.

(** ** C32 *)

Theorem C32_lookup_latest p fs paths s n :
  history p fs paths s ->
  match get_type n s with
  | Ok (Some i) s' => s' = s /\ latest (c_types s) n i
  | Ok None s' => s' = s /\ unnamed (c_types s) n
  | _ => False
  end.
Proof.
  intro H. destruct (history_ok _ _ _ _ H) as (W & _). unfold get_type. pose proof (map_ok _ _ W n) as M.
  destruct (map_get bytes_eqb n (c_type_map s)); auto.
Qed.

(** A name that has several types, one, and none. *)
Example C32_lookup_latest_ex p : history p no_files [] demo_app /\
  get_type (bytes_of_string "<Module>") demo_app = Ok (Some 21%nat) demo_app /\
  get_type (bytes_of_string "App.Point") demo_app = Ok (Some 23%nat) demo_app /\
  get_type (bytes_of_string "App.Absent") demo_app = Ok None demo_app.
Proof. split; [apply demo_app_history|]. destruct p; vm_compute; auto. Qed.

(** The same, without the auxiliary notions: the position found is the greatest of the positions
    that hold a type of that name. *)
Corollary C32_lookup_position p fs paths s n i :
  history p fs paths s ->
  (get_type n s = Ok (Some i) s <->
   (exists t, nth_error (c_types s) i = Some t /\ ti_full_name t = n) /\
   forall j t, nth_error (c_types s) j = Some t -> ti_full_name t = n -> (j <= i)%nat).
Proof.
  intro H. pose proof (C32_lookup_latest p fs paths s n H) as L. split.
  - intros E. rewrite E in L. destruct L as [_ [L1 L2]]. split; [exact L1|].
    intros j t Ej Nj. destruct (Nat.le_gt_cases j i) as [Hle|Hgt]; [exact Hle|]. exfalso. eapply L2; eauto.
  - intros [(t & Et & Nt) Hmax]. destruct (get_type n s) as [[k|] s'|e s'|w|w|]; try contradiction.
    + destruct L as [-> [(u & Eu & Nu) L2]]. pose proof (Hmax _ _ Eu Nu) as Hk.
      destruct (Nat.eq_dec k i) as [->|Hne]; [reflexivity|]. exfalso. apply (L2 i t); [lia|exact Et|exact Nt].
    + destruct L as [_ L]. exfalso. apply (L t); [eapply nth_error_In; eauto|exact Nt].
Qed.
Example C32_lookup_position_ex p : history p no_files [] demo_app /\
  (exists t, nth_error (c_types demo_app) 21 = Some t /\ ti_full_name t = bytes_of_string "<Module>").
Proof. split; [apply demo_app_history|]. destruct p; vm_compute; eauto. Qed.

(** ** C33 *)

Definition brackets : name := bytes_of_string "[]".

Lemma array_of_run p s t u s' : consistent p s -> array_of p t s = Ok u s' ->
  exists e a, nth_error (c_types s) t = Some e /\ nth_error (c_types s') u = Some a /\
    ti_full_name a = ti_full_name e ++ brackets /\ latest (c_types s') (ti_full_name e ++ brackets) u /\
    ((s' = s /\ latest (c_types s) (ti_full_name e ++ brackets) u) \/
     (unnamed (c_types s) (ti_full_name e ++ brackets) /\ c_types s' = c_types s ++ [a] /\
      u = List.length (c_types s) /\ ti_kind a = Some KArray /\ ti_fields a = [] /\ ti_methods a = [])).
Proof.
  intros W. unfold array_of, bind, the_type. destruct (nth_error (c_types s) t) as [e|] eqn:Ee; [|discriminate].
  unfold get_type at 1. pose proof (map_ok _ _ W (ti_full_name e ++ brackets)) as M. fold brackets.
  destruct (map_get bytes_eqb (ti_full_name e ++ brackets) (c_type_map s)) as [v|].
  - cbn. intro E. injection E as <- <-. destruct M as [(a & Ea & Na) L]. exists e, a.
    assert (Lt : latest (c_types s) (ti_full_name e ++ brackets) v) by (split; eauto). auto 10.
  - unfold next_type_id. destruct (u_add p 32 (c_next_id s) 1) as [k|]; [|discriminate]. cbn.
    intro E. injection E as <- <-. cbn [c_types].
    eexists e, _. split; [reflexivity|]. rewrite nth_error_app2, Nat.sub_diag by lia. split; [reflexivity|].
    split; [reflexivity|]. split; [|right; repeat split; auto].
    apply (latest_app (c_types s) (mkType (ti_assembly e) (c_next_id s) (ti_name e ++ bytes_of_string "[]") (ti_namespace e)
        (ti_full_name e ++ brackets) (Some KArray) false _ [] [] [] [] [])).
Qed.

Lemma array_of_again p s t e u : nth_error (c_types s) t = Some e -> consistent p s ->
  latest (c_types s) (ti_full_name e ++ brackets) u -> array_of p t s = Ok u s.
Proof.
  intros E W L. unfold array_of, bind, the_type. rewrite E. unfold get_type at 1. fold brackets.
  pose proof (map_ok _ _ W (ti_full_name e ++ brackets)) as M.
  destruct (map_get bytes_eqb (ti_full_name e ++ brackets) (c_type_map s)) as [v|].
  - cbn. now rewrite (latest_unique _ _ _ _ M L).
  - exfalso. destruct L as [(x & Ex & Nx) _]. apply (M x); [eapply nth_error_In; eauto|exact Nx].
Qed.

(** Asking again gives the same type and leaves the runtime as it is; the first time, at most one
    type is registered, and it is the one returned, an array type named after its element. *)
Theorem C33_array_type_unique_partial p fs paths s t u s' :
  history p fs paths s -> array_of p t s = Ok u s' ->
  array_of p t s' = Ok u s' /\
  (exists e a, nth_error (c_types s) t = Some e /\ nth_error (c_types s') u = Some a /\
     ti_full_name a = ti_full_name e ++ bytes_of_string "[]" /\
     (s' = s \/ (c_types s' = c_types s ++ [a] /\ ti_kind a = Some KArray))).
Proof.
  intros H E. destruct (history_ok _ _ _ _ H) as (W & _).
  destruct (array_of_run _ _ _ _ _ W E) as (e & a & Ee & Ea & Na & L & D).
  destruct (pres_run_ok _ _ _ _ _ _ _ (array_of_pres p s t) W E) as (W' & A & _).
  split.
  - eapply array_of_again; eauto. rewrite (appends_nth _ _ _ A); [exact Ee|]. exact (nth_lt _ _ _ Ee).
  - exists e, a. repeat split; auto. destruct D as [[-> _]|(_ & E1 & _ & K & _)]; auto.
Qed.
Example C33_array_type_unique_ex p : history p no_files [] demo_app /\
  array_of p 23%nat demo_app = Ok 27%nat (state_of (array_of p 23%nat demo_app)) /\
  len (c_types (state_of (array_of p 23%nat demo_app))) = 28 /\
  array_of p 10%nat demo_app = Ok 26%nat demo_app.
Proof. split; [apply demo_app_history|]. destruct p; compute_each. Qed.

(** Later on the answer is still the same, unless an assembly loaded in between defines a type
    that has the very name of the array type. *)
Theorem C33_array_type_stays p fs paths s t u s' s'' e :
  history p fs paths s -> array_of p t s = Ok u s' -> later p fs s' s'' ->
  nth_error (c_types s) t = Some e ->
  (forall j x, (List.length (c_types s') <= j)%nat -> nth_error (c_types s'') j = Some x ->
     ti_full_name x <> ti_full_name e ++ bytes_of_string "[]") ->
  array_of p t s'' = Ok u s''.
Proof.
  intros H E Lt Ee Hno. destruct (history_ok _ _ _ _ H) as (W & _).
  destruct (array_of_run _ _ _ _ _ W E) as (e' & a & Ee' & Ea & Na & L & D).
  assert (e' = e) as -> by congruence.
  destruct (pres_run_ok _ _ _ _ _ _ _ (array_of_pres p s t) W E) as (W' & A & _).
  destruct (later_ok _ _ _ _ Lt W') as [W'' [_ _ _ _ [l El] _]].
  apply array_of_again with (e := e); auto.
  - rewrite El. pose proof (nth_lt _ _ _ Ee). pose proof (appends_count _ _ A).
    rewrite nth_error_app1 by lia. rewrite (appends_nth _ _ _ A) by lia. exact Ee.
  - destruct L as [(x & Ex & Nx) L]. split.
    + exists x. split; [|exact Nx]. rewrite El, nth_error_app1; [exact Ex|]. exact (nth_lt _ _ _ Ex).
    + intros j y Hj Ey. destruct (Nat.lt_ge_cases j (List.length (c_types s'))) as [Hlt|Hge].
      * apply (L j); [exact Hj|]. rewrite El, nth_error_app1 in Ey by exact Hlt. exact Ey.
      * eapply Hno; eauto.
Qed.
Lemma no_later_name n k ts : forallb (fun x => negb (bytes_eqb (ti_full_name x) n)) (skipn k ts) = true ->
  forall j x, (k <= j)%nat -> nth_error ts j = Some x -> ti_full_name x <> n.
Proof.
  intros F j x Hj E <-. rewrite forallb_forall in F.
  assert (I : In x (skipn k ts)).
  { rewrite <- (firstn_skipn k ts), nth_error_app2 in E by (rewrite firstn_length; lia). eapply nth_error_In; eauto. }
  apply F in I. now rewrite bytes_eqb_refl in I.
Qed.

Definition demo_array : vm := Eval vm_compute in state_of (array_of Debug 10%nat demo_vm).
Definition demo_array_app : vm := Eval vm_compute in state_of (load_data 10 Debug no_files app_image demo_array).
Example C33_array_type_stays_ex p : history p no_files [] demo_vm /\
  array_of p 10%nat demo_vm = Ok 21%nat demo_array /\ later p no_files demo_array demo_array_app /\
  (exists e, nth_error (c_types demo_vm) 10 = Some e /\ ti_full_name e = bytes_of_string "System.Int32") /\
  (forall j x, (List.length (c_types demo_array) <= j)%nat -> nth_error (c_types demo_array_app) j = Some x ->
     ti_full_name x <> bytes_of_string "System.Int32" ++ bytes_of_string "[]").
Proof.
  split; [apply demo_vm_history|]. split; [destruct p; vm_compute; reflexivity|]. split; [|split].
  - eapply later_then; [apply later_now|]. apply (ev_load _ _ 10 app_image 2%nat). destruct p; vm_compute; reflexivity.
  - destruct p; vm_compute; eauto.
  - apply no_later_name. destruct p; vm_compute; reflexivity.
Qed.

(** Element types with different names have different array types. *)
Theorem C33_array_types_distinct p fs paths s t t' u u' s1 s2 e e' :
  history p fs paths s -> array_of p t s = Ok u s1 -> array_of p t' s1 = Ok u' s2 ->
  nth_error (c_types s) t = Some e -> nth_error (c_types s) t' = Some e' ->
  ti_full_name e <> ti_full_name e' -> u <> u'.
Proof.
  intros H E1 E2 Ee Ee' Hne ->. destruct (history_ok _ _ _ _ H) as (W & _).
  destruct (array_of_run _ _ _ _ _ W E1) as (x & a & Ex & Ea & Na & _).
  destruct (pres_run_ok _ _ _ _ _ _ _ (array_of_pres p s t) W E1) as (W1 & A1 & _).
  destruct (array_of_run _ _ _ _ _ W1 E2) as (y & b & Ey & Eb & Nb & _).
  destruct (pres_run_ok _ _ _ _ _ _ _ (array_of_pres p s1 t') W1 E2) as (_ & A2 & _).
  rewrite (appends_nth _ _ _ A2) in Eb by exact (nth_lt _ _ _ Ea).
  rewrite (appends_nth _ _ _ A1) in Ey by exact (nth_lt _ _ _ Ee').
  assert (x = e) as -> by congruence. assert (y = e') as -> by congruence. assert (b = a) as -> by congruence.
  rewrite Na in Nb. apply app_inv_tail in Nb. contradiction.
Qed.
Example C33_array_types_distinct_ex p : history p no_files [] demo_vm /\
  array_of p 10%nat demo_vm = Ok 21%nat demo_array /\
  array_of p 12%nat demo_array = Ok 22%nat (state_of (array_of p 12%nat demo_array)).
Proof. split; [apply demo_vm_history|]. destruct p; compute_each. Qed.

(** But two types of the same name, from two assemblies, share their array type, which therefore
    does not have the element type that was asked for. *)
Theorem C33_element_type_refuted p : exists s t t' u,
  history p no_files [] s /\ t <> t' /\ array_of p t s = Ok u s /\ array_of p t' s = Ok u s.
Proof.
  set (s := state_of (array_of p 0%nat demo_vm)).
  assert (E : array_of p 0%nat demo_vm = Ok 21%nat s) by (destruct p; vm_compute; reflexivity).
  exists s, 0%nat, 19%nat, 21%nat. split; [|split; [discriminate|]].
  - exists 10%nat, system_runtime, system_console, demo_vm. split; [apply demo_vm_started|].
    eapply later_then; [apply later_now|]. eapply ev_array. exact E.
  - subst s. destruct p; compute_each.
Qed.

Print Assumptions C31_identifiers_partial.
Print Assumptions C31_identifiers_debug.
Print Assumptions C31_identifiers_refuted.
Print Assumptions C31_registered_types_stay.
Print Assumptions C31_no_dangling_types.
Print Assumptions C32_lookup_latest.
Print Assumptions C32_lookup_position.
Print Assumptions C33_array_type_unique_partial.
Print Assumptions C33_array_type_stays.
Print Assumptions C33_array_types_distinct.
Print Assumptions C33_element_type_refuted.

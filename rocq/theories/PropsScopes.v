(** Property C82: type references and their scopes. *)
From Coq Require Import NArith String List Bool Lia Arith.
From Coq.Strings Require Import Byte.
From Verif Require Import Base BaseFacts Pe Attributes Tables Blob Metadata Runtime Loader SpecBytes SpecPe SpecBlob SpecMetadata SpecRuntime RuntimeInv
  SpecHistory HistoryProofs SpecBody BodyProofs TypeFacts DemoImages DemoStates ScopeImages
  SpecTypes SpecLoader LoaderFacts LoaderRun MemberFacts PropsBlob DemoFacts PropsLoader SpecScopes.
Import ListNotations.
Open Scope N_scope.

Lemma defined_later p fs s s' t n : later p fs s s' -> consistent p s -> defined_by s t n <->
  (t < List.length (c_types s))%nat /\ defined_by s' t n.
Proof.
  intros L W. split.
  - intros (ti & ai & Et & Ea & N). split; [exact (nth_lt _ _ _ Et)|]. exists ti, ai. split; [exact (later_type _ _ _ _ _ _ L W Et)|].
    split; [exact (later_assembly _ _ _ _ _ _ L W Ea)|exact N].
  - intros (Lt & ti & ai & Et & Ea & N). destruct (nth_error (c_types s) t) as [ti'|] eqn:Et'; [|apply nth_error_None in Et'; lia].
    pose proof (later_type _ _ _ _ _ _ L W Et') as X. assert (ti' = ti) as -> by congruence. clear X.
    pose proof (proj1 (Forall_forall _ _) (types_ok _ _ W) _ (nth_error_In _ _ Et')) as [V _].
    destruct (nth_error (c_arena s) (ti_assembly ti)) as [o|] eqn:Ea'; [|apply nth_error_None in Ea'; lia].
    destruct (later_ok _ _ _ _ L W) as [_ G]. destruct (SpecRuntime.gr_arena _ _ G) as [l Hl]. rewrite Hl in Ea.
    rewrite nth_error_app1 in Ea by exact (nth_lt _ _ _ Ea'). exists ti, ai. auto.
Qed.

Lemma later_more p fs s s1 s2 : later p fs s s1 -> later p fs s1 s2 -> later p fs s s2.
Proof. intros A B. induction B as [x|x y z B IH Ev]; [exact A|]. exact (later_then _ _ _ _ _ (IH A) Ev). Qed.
Lemma latest_one ts n i j : latest ts n i -> latest ts n j -> i = j.
Proof.
  intros [(x & X & X') A] [(y & Y & Y') B]. destruct (Nat.lt_trichotomy i j) as [L|[L|L]]; [|exact L|].
  - destruct (A _ _ L Y Y').
  - destruct (B _ _ L X X').
Qed.
Lemma named_once md row n m : refers_to md row n -> refers_to md row m -> n = m.
Proof.
  intros (a & b & A & B & ->) (c & d & C & D & ->).
  now rewrite (heap_text_one _ _ _ _ A C), (heap_text_one _ _ _ _ B D).
Qed.

Section Load.
  Variables (p : profile) (fs : file_system) (paths : list name) (s : vm) (fuel : nat) (data : list byte) (md : metadata)
    (a : aref) (s1 s2 : vm).
  Hypotheses (H : history p fs paths s) (Em : read_metadata p data tt = Ok md tt) (Hmd : addressable md) (Hl : well_listed md)
    (E : load_data fuel p fs data s = Ok a s1) (La : later p fs s1 s2).

  (** C82 for assemblies, as far as it goes: where the last type registered under the full name is one of the assembly
      that the row names, the reference stands for it, for ever. *)
  Lemma last_is_meant k row fn n t : references_loaded s md -> row_of (tb_type_ref (m_tables md)) k row -> k < 2 ^ 24 ->
    refers_to md row fn -> latest (c_types s) fn t ->
    resolve_type p a (0x01000000 + k) s2 = Ok (Some t) s2 /\ is_named (c_types s2) t fn /\
    (defined_by s t n <-> defined_by s2 t n).
  Proof.
    intros RL R K Rf Lt.
    destruct (C65_type_ref_tokens _ _ _ _ _ _ _ _ _ _ _ _ H Em Hmd Hl E La R K) as (t' & x & y & Rt & Tx & Ty & Nt & Lt').
    assert (fn = qualified x y) as -> by (apply (named_once _ _ _ _ Rf); exists x, y; auto).
    rewrite (latest_one _ _ _ _ Lt (Lt' RL)) in *. split; [exact Rt|]. split; [exact Nt|].
    assert (L : later p fs s s2). { eapply later_more; [|exact La]. eapply later_then; [apply later_now|]. eapply ev_load; eauto. }
    rewrite (defined_later _ _ _ _ t' n L (proj1 (history_ok _ _ _ _ H))). split; [tauto|]. intro D. split; [|exact D].
    destruct (Lt' RL) as [(u & Eu & _) _]. exact (nth_lt _ _ _ Eu).
  Qed.
End Load.

(** C82 for references to types of assemblies: where the last type registered under the full name is one of the
    assembly that the row names, the reference stands for it, and does so for ever. *)
Theorem C82_last_partial p fs paths s fuel data md a s1 s2 k row fn n t :
  history p fs paths s -> read_metadata p data tt = Ok md tt -> addressable md -> well_listed md ->
  load_data fuel p fs data s = Ok a s1 -> later p fs s1 s2 -> references_loaded s md ->
  row_of (tb_type_ref (m_tables md)) k row -> k < 2 ^ 24 -> refers_to md row fn -> of_assembly md row n ->
  latest (c_types s) fn t -> defined_by s t n ->
  resolve_type p a (0x01000000 + k) s2 = Ok (Some t) s2 /\ is_named (c_types s2) t fn /\ defined_by s2 t n.
Proof.
  intros H Em Hmd Hl E La RL R K Rf _ Lt D.
  destruct (last_is_meant _ _ _ _ _ _ _ _ _ _ H Em Hmd Hl E La k row fn n t RL R K Rf Lt) as (A & B & C).
  split; [exact A|]. split; [exact B|]. now apply C.
Qed.
Print Assumptions C82_last_partial.

(** In particular where only one assembly has a type of that name. *)
Theorem C82_only_partial p fs paths s fuel data md a s1 s2 k row fn n t :
  history p fs paths s -> read_metadata p data tt = Ok md tt -> addressable md -> well_listed md ->
  load_data fuel p fs data s = Ok a s1 -> later p fs s1 s2 -> references_loaded s md ->
  row_of (tb_type_ref (m_tables md)) k row -> k < 2 ^ 24 -> refers_to md row fn -> of_assembly md row n ->
  is_named (c_types s) t fn -> defined_by s t n -> (forall u, is_named (c_types s) u fn -> u = t) ->
  resolve_type p a (0x01000000 + k) s2 = Ok (Some t) s2 /\ is_named (c_types s2) t fn /\ defined_by s2 t n.
Proof.
  intros H Em Hmd Hl E La RL R K Rf Oa Nt D U. apply (C82_last_partial p fs paths s fuel data md a s1 s2 k row fn n t); auto.
  split; [exact Nt|]. intros j tj Lt Ej Nj. assert (j = t) by (apply U; exists tj; auto). lia.
Qed.
Print Assumptions C82_only_partial.

(** C82 is false where a type of the same full name was registered later by another assembly: the reference stands for that
    one, although the assembly that it names has a type of the name. *)
Theorem C82_assembly_refuted p fs paths s fuel data md a s1 s2 k row fn n t u :
  history p fs paths s -> read_metadata p data tt = Ok md tt -> addressable md -> well_listed md ->
  load_data fuel p fs data s = Ok a s1 -> later p fs s1 s2 -> references_loaded s md ->
  row_of (tb_type_ref (m_tables md)) k row -> k < 2 ^ 24 -> refers_to md row fn -> of_assembly md row n ->
  is_named (c_types s) t fn -> defined_by s t n -> latest (c_types s) fn u -> ~ defined_by s u n ->
  exists v, resolve_type p a (0x01000000 + k) s2 = Ok (Some v) s2 /\ v <> t /\ ~ defined_by s2 v n.
Proof.
  intros H Em Hmd Hl E La RL R K Rf _ Nt D Lu Du. exists u.
  destruct (last_is_meant _ _ _ _ _ _ _ _ _ _ H Em Hmd Hl E La k row fn n u RL R K Rf Lu) as (A & B & C).
  split; [exact A|]. split; [intros ->; exact (Du D)|]. intro X. now apply Du, C.
Qed.
Print Assumptions C82_assembly_refuted.

(** And C82 is false of nested types: two references of the same name stand for the same type, whatever types they are
    nested in, and so do references to types of two assemblies. *)
Theorem C82_nested_refuted p fs paths s fuel data md a s1 s2 k row j row' fn :
  history p fs paths s -> read_metadata p data tt = Ok md tt -> addressable md -> well_listed md ->
  load_data fuel p fs data s = Ok a s1 -> later p fs s1 s2 ->
  row_of (tb_type_ref (m_tables md)) k row -> k < 2 ^ 24 -> refers_to md row fn ->
  row_of (tb_type_ref (m_tables md)) j row' -> j < 2 ^ 24 -> refers_to md row' fn ->
  exists t, resolve_type p a (0x01000000 + k) s2 = Ok (Some t) s2 /\ resolve_type p a (0x01000000 + j) s2 = Ok (Some t) s2.
Proof.
  intros H Em Hmd Hl E La R K Rf R' K' Rf'. destruct (history_ok _ _ _ _ H) as (W & _).
  destruct (load_data_run _ _ _ _ _ _ _ _ W Em Hmd Hl E) as (s0 & ai & m & W0 & V0 & W1 & V1 & Ea & F & _ & Tr & _).
  pose proof (later_assembly _ _ _ _ _ _ La W1 Ea) as Ea2. destruct (type_refs_run _ _ _ _ _ W0 Tr) as [_ F2].
  destruct R as [K1 R], R' as [K1' R'].
  destruct (Forall2_nth_error_l _ _ _ _ _ F2 R) as (t & Et & n & ns & Hn & Hns & Lt).
  destruct (Forall2_nth_error_l _ _ _ _ _ F2 R') as (t' & Et' & n' & ns' & Hn' & Hns' & Lt').
  rewrite <- (named_once md row fn _ Rf ltac:(exists n, ns; auto)) in Lt.
  rewrite <- (named_once md row' fn _ Rf' ltac:(exists n', ns'; auto)) in Lt'. rewrite <- (latest_one _ _ _ _ Lt Lt') in Et'.
  exists t. rewrite (resolve_type_ref_at p a s2 ai k Ea2 (conj K1 K)), (resolve_type_ref_at p a s2 ai j Ea2 (conj K1' K')).
  split; f_equal; assumption.
Qed.
Print Assumptions C82_nested_refuted.

(** ** Examples *)

(** [Left] and [Right] both define a type [Shapes.Box]; [Right] has two types [Item], nested in [Right.Chest] and [Right.Drawer].
    [Guest] refers to all of them. *)
Definition demo_left : vm := Eval vm_compute in state_of (load_data 10 Debug no_files left_image demo_vm).
Lemma demo_left_loaded p : load_data 10 p no_files left_image demo_vm = Ok 2%nat demo_left.
Proof. destruct p; vm_compute; reflexivity. Qed.
Definition demo_both : vm := Eval vm_compute in state_of (load_data 10 Debug no_files right_image demo_left).
Lemma demo_both_loaded p : load_data 10 p no_files right_image demo_left = Ok 3%nat demo_both.
Proof. destruct p; vm_compute; reflexivity. Qed.
Lemma demo_both_history p : history p no_files [] demo_both.
Proof.
  destruct (demo_vm_history p) as (f & rt & con & s0 & N & L). exists f, rt, con, s0. split; [exact N|].
  eapply later_then; [eapply later_then; [exact L|]|]; eapply ev_load; [apply demo_left_loaded|apply demo_both_loaded].
Qed.
Definition demo_guest : vm := Eval vm_compute in state_of (load_data 10 Debug no_files guest_image demo_both).
Lemma demo_guest_loaded p : load_data 10 p no_files guest_image demo_both = Ok 4%nat demo_guest.
Proof. destruct p; vm_compute; reflexivity. Qed.
Definition guest_md : metadata := ltac:(let r := eval vm_compute in (metadata_of (read_metadata Debug guest_image tt)) in
  match r with Some ?m => exact m end).
Lemma guest_md_read p : read_metadata p guest_image tt = Ok guest_md tt.
Proof. destruct p; vm_compute; reflexivity. Qed.
Lemma guest_md_fine : addressable guest_md /\ well_listed guest_md.
Proof. split; [addressable_here|listed_here]. Qed.
Lemma guest_references : references_loaded demo_both guest_md.
Proof. apply check_loaded. vm_compute. reflexivity. Qed.
Definition stands_for (k : N) : option tref :=
  match resolve_type Debug 4%nat (0x01000000 + k) demo_guest with Ok o _ => o | _ => None end.
Definition shapes_box : name := bytes_of_string "Shapes.Box".
Ltac here := split; [vm_compute; discriminate|vm_compute; reflexivity].
Ltac defined_here := eexists; eexists; split; [vm_compute; reflexivity|split; vm_compute; reflexivity].
Ltac refers_here n ns := exists (bytes_of_string n), (bytes_of_string ns); split; [text_here|split; [text_here|vm_compute; reflexivity]].
Ltac scope_here := eexists; eexists; split; [vm_compute; reflexivity|split; [here|text_here]].

Example C82_load_example p : history p no_files [] demo_both /\ read_metadata p guest_image tt = Ok guest_md tt /\
  addressable guest_md /\ well_listed guest_md /\ load_data 10 p no_files guest_image demo_both = Ok 4%nat demo_guest /\
  references_loaded demo_both guest_md.
Proof.
  split; [apply demo_both_history|]. split; [apply guest_md_read|]. destruct guest_md_fine as [A B]. split; [exact A|]. split; [exact B|].
  split; [apply demo_guest_loaded|apply guest_references].
Qed.

(** The reference to the type of [Right] stands for it: [Right] was loaded last. *)
Example C82_last_example : exists row, row_of (tb_type_ref (m_tables guest_md)) 3 row /\ refers_to guest_md row shapes_box /\
  of_assembly guest_md row (bytes_of_string "Right") /\ latest (c_types demo_both) shapes_box 24%nat /\
  defined_by demo_both 24%nat (bytes_of_string "Right") /\ stands_for 3 = Some 24%nat.
Proof.
  eexists. split; [here|]. split; [refers_here "Box"%string "Shapes"%string|]. split; [scope_here|]. split; [|split; [defined_here|vm_compute; reflexivity]].
  split; [eexists; split; vm_compute; reflexivity|]. intros j tj L E N. pose proof (nth_lt _ _ _ E) as Lt.
  change (List.length (c_types demo_both)) with 29%nat in Lt.
  assert (j = 25 \/ j = 26 \/ j = 27 \/ j = 28)%nat as [-> |[-> |[-> | ->]]] by lia; vm_compute in E; injection E as <-; vm_compute in N; discriminate.
Qed.
(** [Right.Chest] is the only type of that name. *)
Example C82_only_example : exists row, row_of (tb_type_ref (m_tables guest_md)) 4 row /\
  refers_to guest_md row (bytes_of_string "Right.Chest") /\ of_assembly guest_md row (bytes_of_string "Right") /\
  is_named (c_types demo_both) 25%nat (bytes_of_string "Right.Chest") /\ defined_by demo_both 25%nat (bytes_of_string "Right") /\
  (forall u, is_named (c_types demo_both) u (bytes_of_string "Right.Chest") -> u = 25%nat) /\ stands_for 4 = Some 25%nat.
Proof.
  eexists. split; [here|]. split; [refers_here "Chest"%string "Right"%string|]. split; [scope_here|]. split; [eexists; split; vm_compute; reflexivity|].
  split; [defined_here|]. split; [|vm_compute; reflexivity]. intros u (ti & E & N). pose proof (nth_lt _ _ _ E) as Lt.
  change (List.length (c_types demo_both)) with 29%nat in Lt.
  do 29 (destruct u as [|u]; [vm_compute in E; injection E as <-; vm_compute in N; first [discriminate|reflexivity]|]). lia.
Qed.
(** But the reference to the type of [Left] stands for the type of [Right], too. *)
Example C82_assembly_example : exists row, row_of (tb_type_ref (m_tables guest_md)) 2 row /\ refers_to guest_md row shapes_box /\
  of_assembly guest_md row (bytes_of_string "Left") /\ is_named (c_types demo_both) 22%nat shapes_box /\
  defined_by demo_both 22%nat (bytes_of_string "Left") /\ ~ defined_by demo_both 24%nat (bytes_of_string "Left") /\
  stands_for 2 = Some 24%nat.
Proof.
  eexists. split; [here|]. split; [refers_here "Box"%string "Shapes"%string|]. split; [scope_here|].
  split; [eexists; split; vm_compute; reflexivity|]. split; [defined_here|]. split; [|vm_compute; reflexivity].
  intros (ti & ai & E & A & N). vm_compute in E. injection E as <-. vm_compute in A. injection A as <-. vm_compute in N. discriminate.
Qed.
(** The references to the types [Item] nested in [Right.Chest] and in [Right.Drawer] stand for one type. *)
Example C82_nested_example : exists a b c d,
  row_of (tb_type_ref (m_tables guest_md)) 6 a /\ refers_to guest_md a (bytes_of_string "Item") /\ nested_in guest_md a c /\
  row_of (tb_type_ref (m_tables guest_md)) 7 b /\ refers_to guest_md b (bytes_of_string "Item") /\ nested_in guest_md b d /\
  refers_to guest_md c (bytes_of_string "Right.Chest") /\ refers_to guest_md d (bytes_of_string "Right.Drawer") /\
  stands_for 6 = Some 28%nat /\ stands_for 7 = Some 28%nat.
Proof.
  eexists. eexists. eexists. eexists. split; [here|]. split; [refers_here "Item"%string ""%string|].
  split; [eexists; split; [vm_compute; reflexivity|here]|]. split; [here|]. split; [refers_here "Item"%string ""%string|].
  split; [eexists; split; [vm_compute; reflexivity|here]|]. split; [refers_here "Chest"%string "Right"%string|].
  split; [refers_here "Drawer"%string "Right"%string|]. split; vm_compute; reflexivity.
Qed.

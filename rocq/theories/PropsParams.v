(** Property C80: the names of parameters. *)
From Coq Require Import NArith String List Bool Lia Arith.
From Coq.Strings Require Import Byte.
From Verif Require Import Base BaseFacts Pe Attributes Tables Blob Metadata Runtime Loader SpecBytes SpecPe SpecBlob SpecMetadata SpecRuntime RuntimeInv
  SpecHistory HistoryProofs SpecBody BodyProofs TypeFacts DemoImages DemoStates ParamImages
  SpecTypes SpecLoader LoaderFacts LoaderRun MemberFacts PropsBlob DemoFacts PropsLoader SpecParams.
Import ListNotations.
Open Scope N_scope.

Lemma Forall2_lengths {A B} (R : A -> B -> Prop) xs ys : Forall2 R xs ys -> List.length xs = List.length ys.
Proof. induction 1; cbn; congruence. Qed.
Lemma row_map {A B} (f : A -> B) l k x : row_of l k x -> row_of (map f l) k (f x).
Proof. intros [K E]. split; [exact K|]. now rewrite nth_error_map, E. Qed.

(** The token of a method resolves to it, and its parameters are named by the rows from the one in the row of
    the method on, whatever their numbers. *)
Lemma params_by_position p fs paths s fuel data md a s1 s2 k row :
  history p fs paths s -> read_metadata p data tt = Ok md tt -> addressable md -> well_listed md ->
  load_data fuel p fs data s = Ok a s1 -> later p fs s1 s2 ->
  len (tb_param (m_tables md)) < 2 ^ 24 -> row_of (tb_method_def (m_tables md)) k row ->
  exists x, resolve_method p a (0x06000000 + k) s2 = Ok (Some x) s2 /\
    forall i pa, nth_error (mt_params x) i = Some pa ->
      exists r, row_of (tb_param (m_tables md)) (me_param_list row + N.of_nat i) r /\
        heap_text md (pm_name r) (pa_name pa) /\ pa_index pa = pm_index r.
Proof.
  intros H Em Hmd Hl E La Lp R.
  destruct (C34_method_tokens _ _ _ _ _ _ _ _ _ _ _ _ H Em Hmd Hl E La R) as (x & j & owner & Rx & _ & _ & As).
  exists x. split; [exact Rx|]. exact (mas_params _ _ _ _ _ As Lp).
Qed.

(** C80, where every parameter has a row and the rows are numbered 1, 2, ... in order: each has its name and its number. *)
Theorem C80_numbered_partial p fs paths s fuel data md a s1 s2 k row :
  history p fs paths s -> read_metadata p data tt = Ok md tt -> addressable md -> well_listed md ->
  load_data fuel p fs data s = Ok a s1 -> later p fs s1 s2 ->
  len (tb_param (m_tables md)) < 2 ^ 24 -> row_of (tb_method_def (m_tables md)) k row -> numbered md k 1 ->
  exists x, resolve_method p a (0x06000000 + k) s2 = Ok (Some x) s2 /\
    forall i pa n, nth_error (mt_params x) i = Some pa -> called md k i n ->
      pa_name pa = n /\ pa_index pa = N.of_nat i + 1.
Proof.
  intros H Em Hmd Hl E La Lp R (row' & R' & Nu). rewrite (row_unique _ _ _ _ R' R) in Nu. clear row' R'.
  destruct (params_by_position _ _ _ _ _ _ _ _ _ _ _ _ H Em Hmd Hl E La Lp R) as (x & Rx & P).
  exists x. split; [exact Rx|]. intros i pa n Ei (q & r' & [Bq Rq] & Iq & Tq).
  destruct (P i pa Ei) as (r & Rr & Tr & Ir). pose proof (Nu q r' (conj Bq Rq)) as Nq. destruct Bq as (z & Rz & Lz & _).
  rewrite (row_unique _ _ _ _ Rz (row_map me_param_list _ _ _ R)) in Lz.
  replace q with (me_param_list row + N.of_nat i) in Rq by lia. rewrite (row_unique _ _ _ _ Rr Rq) in Tr, Ir.
  split; [exact (heap_text_one _ _ _ _ Tr Tq)|congruence].
Qed.
Print Assumptions C80_numbered_partial.

(** C80 is false where the result has a row, as it has when it carries attributes or is marshalled: every
    parameter is given the name and the number of what comes before it, and the first those of the result. *)
Theorem C80_result_row_refuted p fs paths s fuel data md a s1 s2 k row :
  history p fs paths s -> read_metadata p data tt = Ok md tt -> addressable md -> well_listed md ->
  load_data fuel p fs data s = Ok a s1 -> later p fs s1 s2 ->
  len (tb_param (m_tables md)) < 2 ^ 24 -> row_of (tb_method_def (m_tables md)) k row -> numbered md k 0 ->
  exists x, resolve_method p a (0x06000000 + k) s2 = Ok (Some x) s2 /\
    forall i pa n, nth_error (mt_params x) i = Some pa -> called md k i n ->
      pa_index pa = N.of_nat i /\
      match i with
      | O => exists q r, param_of md k q r /\ pm_index r = 0 /\ heap_text md (pm_name r) (pa_name pa)
      | S j => called md k j (pa_name pa)
      end.
Proof.
  intros H Em Hmd Hl E La Lp R (row' & R' & Nu). rewrite (row_unique _ _ _ _ R' R) in Nu. clear row' R'.
  destruct (params_by_position _ _ _ _ _ _ _ _ _ _ _ _ H Em Hmd Hl E La Lp R) as (x & Rx & P).
  exists x. split; [exact Rx|]. intros i pa n Ei (q & r' & [Bq Rq] & Iq & Tq).
  destruct (P i pa Ei) as (r & Rr & Tr & Ir). pose proof (Nu q r' (conj Bq Rq)) as Nq.
  assert (B : belongs (map me_param_list (tb_method_def (m_tables md))) (me_param_list row + N.of_nat i) k).
  { destruct Bq as (z & Rz & Lz & Uz). pose proof (row_unique _ _ _ _ Rz (row_map me_param_list _ _ _ R)) as ->.
    exists (me_param_list row). split; [exact Rz|]. split; [lia|]. intros y Ry. specialize (Uz y Ry). lia. }
  pose proof (Nu _ r (conj B Rr)) as Nr. split; [rewrite Ir, Nr; lia|].
  destruct i as [|j].
  - exists (me_param_list row + 0), r. split; [exact (conj B Rr)|]. split; [lia|exact Tr].
  - exists (me_param_list row + N.of_nat (S j)), r. split; [exact (conj B Rr)|]. split; [lia|exact Tr].
Qed.
Print Assumptions C80_result_row_refuted.

(** C80 is false where parameters have no rows, which the standard allows: those of a method without any rows
    are given names of rows of later methods. *)
Theorem C80_other_rows_refuted p fs paths s fuel data md a s1 s2 k row :
  history p fs paths s -> read_metadata p data tt = Ok md tt -> addressable md -> well_listed md ->
  load_data fuel p fs data s = Ok a s1 -> later p fs s1 s2 ->
  len (tb_param (m_tables md)) < 2 ^ 24 -> row_of (tb_method_def (m_tables md)) k row ->
  (forall q r, ~ param_of md k q r) ->
  exists x, resolve_method p a (0x06000000 + k) s2 = Ok (Some x) s2 /\
    forall i pa, nth_error (mt_params x) i = Some pa ->
      uncalled md k i /\
      exists q r, row_of (tb_param (m_tables md)) q r /\ heap_text md (pm_name r) (pa_name pa) /\
        exists k' y, k < k' /\ row_of (map me_param_list (tb_method_def (m_tables md))) k' y /\ y <= q.
Proof.
  intros H Em Hmd Hl E La Lp R No.
  destruct (params_by_position _ _ _ _ _ _ _ _ _ _ _ _ H Em Hmd Hl E La Lp R) as (x & Rx & P).
  exists x. split; [exact Rx|]. intros i pa Ei. split; [intros q r Q; destruct (No _ _ Q)|].
  destruct (P i pa Ei) as (r & Rr & Tr & _). exists (me_param_list row + N.of_nat i), r. split; [exact Rr|]. split; [exact Tr|].
  destruct (nth_error (map me_param_list (tb_method_def (m_tables md))) (N.to_nat (k + 1 - 1))) as [y|] eqn:Ey.
  - assert (Ry : row_of (map me_param_list (tb_method_def (m_tables md))) (k + 1) y) by (split; [lia|exact Ey]).
    exists (k + 1), y. split; [lia|]. split; [exact Ry|].
    destruct (N.le_gt_cases y (me_param_list row + N.of_nat i)) as [L|G]; [exact L|]. exfalso. apply (No (me_param_list row + N.of_nat i) r). split; [|exact Rr].
    exists (me_param_list row). split; [exact (row_map me_param_list _ _ _ R)|]. split; [lia|].
    intros y' Ry'. now rewrite (row_unique _ _ _ _ Ry' Ry).
  - exfalso. apply (No (me_param_list row + N.of_nat i) r). split; [|exact Rr].
    exists (me_param_list row). split; [exact (row_map me_param_list _ _ _ R)|]. split; [lia|].
    intros y [_ Ey']. congruence.
Qed.
Print Assumptions C80_other_rows_refuted.

(** And where there are too few rows after that of the method, the image cannot be loaded. *)
Theorem C80_no_rows_refuted p fs paths s fuel data md a s1 k row sg rn pns :
  history p fs paths s -> read_metadata p data tt = Ok md tt -> addressable md -> well_listed md ->
  len (tb_param (m_tables md)) < 2 ^ 24 -> row_of (tb_method_def (m_tables md)) k row ->
  method_sig_ok sg -> ms_extra sg = [] -> heap_blob md (me_signature row) (enc_method_sig sg) ->
  type_name md (ms_result sg) rn -> Forall2 (type_name md) (ms_args sg) pns -> ms_args sg <> [] ->
  len (tb_param (m_tables md)) < me_param_list row + len (ms_args sg) - 1 ->
  load_data fuel p fs data s <> Ok a s1.
Proof.
  intros H Em Hmd Hl Lp R Ok1 Ex Bl Tn Ta Ne Few E.
  destruct (C34_method_tokens _ _ _ _ _ _ _ _ _ _ _ _ H Em Hmd Hl E (later_now _ _ _) R) as (x & j & owner & Rx & _ & _ & As).
  destruct (mas_types _ _ _ _ _ As sg rn pns Ok1 Ex Bl Tn Ta) as [_ F].
  assert (L : List.length (mt_params x) = List.length (ms_args sg)).
  { apply Forall2_lengths in F. apply Forall2_lengths in Ta. rewrite map_length in F. congruence. }
  destruct (nth_error (mt_params x) (List.length (ms_args sg) - 1)) as [pa|] eqn:Ep.
  - destruct (mas_params _ _ _ _ _ As Lp _ _ Ep) as (r & [_ Er] & _). apply nth_lt in Er. unfold len in *.
    destruct (ms_args sg); [congruence|]. cbn [List.length] in *. lia.
  - apply nth_error_None in Ep. destruct (ms_args sg); [congruence|]. cbn [List.length] in *. lia.
Qed.
Print Assumptions C80_no_rows_refuted.

(** ** Examples *)

Definition demo_params : vm := Eval vm_compute in state_of (load_data 10 Debug no_files params_image demo_vm).
Lemma demo_params_loaded p : load_data 10 p no_files params_image demo_vm = Ok 2%nat demo_params.
Proof. destruct p; vm_compute; reflexivity. Qed.
Definition params_md : metadata := ltac:(let r := eval vm_compute in (metadata_of (read_metadata Debug params_image tt)) in
  match r with Some ?m => exact m end).
Definition mute_md : metadata := ltac:(let r := eval vm_compute in (metadata_of (read_metadata Debug mute_image tt)) in
  match r with Some ?m => exact m end).
Lemma params_md_read p : read_metadata p params_image tt = Ok params_md tt.
Proof. destruct p; vm_compute; reflexivity. Qed.
Lemma mute_md_read p : read_metadata p mute_image tt = Ok mute_md tt.
Proof. destruct p; vm_compute; reflexivity. Qed.
Lemma params_md_fine : addressable params_md /\ well_listed params_md /\ len (tb_param (m_tables params_md)) < 2 ^ 24.
Proof. split; [addressable_here|split; [listed_here|vm_compute; reflexivity]]. Qed.
Lemma mute_md_fine : addressable mute_md /\ well_listed mute_md /\ len (tb_param (m_tables mute_md)) < 2 ^ 24.
Proof. split; [addressable_here|split; [listed_here|vm_compute; reflexivity]]. Qed.
Definition param_names (k : N) : option (list (name * N)) :=
  match resolve_method Debug 2%nat (0x06000000 + k) demo_params with
  | Ok (Some x) _ => Some (map (fun a => (pa_name a, pa_index a)) (mt_params x))
  | _ => None
  end.
Ltac row_here := split; [vm_compute; discriminate|vm_compute; reflexivity].

(** The rows of a method are among those from its first to that of the next method. *)
Lemma param_bounds md k q r x y : row_of (map me_param_list (tb_method_def (m_tables md))) k x ->
  row_of (map me_param_list (tb_method_def (m_tables md))) (k + 1) y -> param_of md k q r -> x <= q < y.
Proof.
  intros Rx Ry [(z & Rz & Lz & Uz) _]. rewrite (row_unique _ _ _ _ Rz Rx) in Lz. split; [exact Lz|]. exact (Uz y Ry).
Qed.

(** [Usual] has one parameter, whose row has the number 1. *)
Example C80_numbered_example p : history p no_files [] demo_vm /\ read_metadata p params_image tt = Ok params_md tt /\
  addressable params_md /\ well_listed params_md /\ len (tb_param (m_tables params_md)) < 2 ^ 24 /\
  load_data 10 p no_files params_image demo_vm = Ok 2%nat demo_params /\
  numbered params_md 3 1 /\ called params_md 3 0 (bytes_of_string "z") /\
  param_names 3 = Some [(bytes_of_string "z", 1)].
Proof.
  split; [apply demo_vm_history|]. split; [apply params_md_read|]. destruct params_md_fine as (A & B & C).
  split; [exact A|]. split; [exact B|]. split; [exact C|]. split; [apply demo_params_loaded|]. split; [|split; [|vm_compute; reflexivity]].
  - eexists. split; [row_here|]. intros q r Q. pose proof (param_bounds params_md 3 q r 4 5 ltac:(row_here) ltac:(row_here) Q) as L.
    assert (q = 4) as -> by lia. destruct Q as [_ [_ E]]. vm_compute in E. injection E as <-. vm_compute. reflexivity.
  - exists 4. eexists. split; [split; [|row_here]|split; [vm_compute; reflexivity|text_here]].
    exists 4. split; [row_here|]. split; [lia|]. intros y [_ E]. vm_compute in E. injection E as <-. reflexivity.
Qed.

(** The rows of [Marked] have the numbers 0, 1 and 2; its parameters [x] and [y] are loaded as [result] and [x]. *)
Example C80_result_row_example : numbered params_md 1 0 /\ called params_md 1 0 (bytes_of_string "x") /\
  called params_md 1 1 (bytes_of_string "y") /\
  param_names 1 = Some [(bytes_of_string "result", 0); (bytes_of_string "x", 1)].
Proof.
  split; [|split; [|split; [|vm_compute; reflexivity]]].
  - eexists. split; [row_here|]. intros q r Q. pose proof (param_bounds params_md 1 q r 1 4 ltac:(row_here) ltac:(row_here) Q) as L.
    destruct Q as [_ [_ E]]. assert (q = 1 \/ q = 2 \/ q = 3) as [-> |[-> | ->]] by lia;
      vm_compute in E; injection E as <-; vm_compute; reflexivity.
  - exists 2. eexists. split; [split; [|row_here]|split; [vm_compute; reflexivity|text_here]].
    exists 1. split; [row_here|]. split; [lia|]. intros y [_ E]. vm_compute in E. injection E as <-. reflexivity.
  - exists 3. eexists. split; [split; [|row_here]|split; [vm_compute; reflexivity|text_here]].
    exists 1. split; [row_here|]. split; [lia|]. intros y [_ E]. vm_compute in E. injection E as <-. reflexivity.
Qed.

(** [Silent] has no rows; its parameter has the name of that of [Usual]. *)
Example C80_other_rows_example : (exists row, row_of (tb_method_def (m_tables params_md)) 2 row) /\
  (forall q r, ~ param_of params_md 2 q r) /\ param_names 2 = Some [(bytes_of_string "z", 1)].
Proof.
  split; [eexists; row_here|]. split; [|vm_compute; reflexivity]. intros q r Q.
  pose proof (param_bounds params_md 2 q r 4 4 ltac:(row_here) ltac:(row_here) Q) as L. lia.
Qed.

(** An image with one method, which has a parameter, and no rows for parameters: loading it panics. *)
Definition mute_sig : method_sig := {| ms_has_this := false; ms_explicit := false; ms_is_vararg := false; ms_generic := None;
  ms_result := TSimple PI4; ms_args := [TSimple PI4]; ms_extra := [] |}.
Example C80_no_rows_example p : read_metadata p mute_image tt = Ok mute_md tt /\ addressable mute_md /\ well_listed mute_md /\
  (exists row, row_of (tb_method_def (m_tables mute_md)) 1 row /\ method_sig_ok mute_sig /\
     heap_blob mute_md (me_signature row) (enc_method_sig mute_sig) /\
     len (tb_param (m_tables mute_md)) < me_param_list row + len (ms_args mute_sig) - 1) /\
  Forall2 (type_name mute_md) (ms_args mute_sig) [bytes_of_string "System.Int32"] /\
  exists w, load_data 10 p no_files mute_image demo_vm = Panic w.
Proof.
  split; [apply mute_md_read|]. destruct mute_md_fine as (A & B & C). split; [exact A|]. split; [exact B|]. split; [|split].
  - eexists. split; [row_here|]. split; [repeat constructor|]. split; [|vm_compute; reflexivity].
    split; [apply check_bytes_at; vm_compute; reflexivity|vm_compute; reflexivity].
  - repeat constructor.
  - eexists. destruct p; vm_compute; reflexivity.
Qed.

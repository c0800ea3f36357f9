(** Loading has no undefined behaviour, whatever the bytes: C75. *)
From Coq Require Import NArith ZArith String List Bool Lia.
From Coq.Strings Require Import Byte.
From Verif Require Import Base BaseFacts BinaryReader Pe ParseSpec Attributes Tables Blob Metadata Utf Runtime Loader Value Gc Interp Host
  SpecExec SpecFrames SpecStack SpecRuntime SpecHistory SpecHeap SpecSafety TraceFacts FuelFacts RuntimeInv PropsHeap SafetyCheck PropsSafety
  SoundFacts SoundLoad DemoImages DemoStates DemoRuns PropsImage.
Import ListNotations.
Open Scope N_scope.

(** Every file fits into memory. *)
Definition files_fit (fs : file_system) : Prop := forall d f data, fs d f = File data -> slice_ok data.

Lemma sound_no_ub {S A} (P : S -> Prop) (Q : A -> Prop) m s : sound P Q m -> P s -> forall w, m s <> Ub w.
Proof. intros H Hs w E. specialize (H s Hs). now rewrite E in H. Qed.

(** ** C75: loading *)

(** In any state of the runtime, with any files in the search path. *)
Theorem C75_load : forall p fs, files_fit fs -> forall fuel s w,
  (forall data, slice_ok data -> load_data fuel p fs data s <> Ub w) /\
  (forall dir file, load_path fuel p fs (dir, file) s <> Ub w) /\
  (forall n, load_assembly fuel p fs n s <> Ub w).
Proof.
  intros p fs F fuel s w. split; [|split].
  - intros data Hd. exact (sound_no_ub _ _ _ s (sd_load_data p fs F fuel data Hd) Logic.I w).
  - intros d f. exact (sound_no_ub _ _ _ s (sd_load_path p fs F fuel (d, f)) Logic.I w).
  - intro n. exact (sound_no_ub _ _ _ s (sd_load_assembly p fs F fuel n) Logic.I w).
Qed.

Lemma sd_new_runtime p fs fuel paths rt con : files_fit fs -> slice_ok rt -> slice_ok con ->
  forall w, new_runtime fuel p fs paths rt con <> Ub w.
Proof.
  intros F R C w. unfold new_runtime. match goal with |- ?m ?s <> _ => assert (G : sound (S := vm) any any m); [|exact (sound_no_ub _ _ _ s G Logic.I w)] end.
  apply sd_then; [now apply sd_load_data|intros _]. apply sd_then; [now apply sd_load_data|intros _].
  repeat (apply sd_then; [first [apply sd_named|apply sd_state]|intro]). apply sd_put.
Qed.

(** Starting the runtime, with any two images in place of the ones that come with it. *)
Theorem C75_start : forall p fs fuel paths rt con, files_fit fs -> slice_ok rt -> slice_ok con ->
  forall w, new_runtime fuel p fs paths rt con <> Ub w.
Proof. exact sd_new_runtime. Qed.

(** The parts: headers, metadata, and the data that an image that was read is asked for. *)
Theorem C75_metadata : forall p data, slice_ok data -> forall w,
  parse_pe p data <> Ub w /\ read_metadata p data tt <> Ub w /\
  forall md, read_metadata p data tt = Ok md tt ->
    (forall rs, get_pe_data p md rs tt <> Ub w) /\ (forall offset, get_resource_data p md offset tt <> Ub w) /\
    (forall s rva, load_body p md rva s <> Ub w).
Proof.
  intros p data Hd w. split; [exact (sound_no_ub _ _ _ (new_reader data) (sd_parse_pe p) Hd w)|].
  pose proof (sd_read_metadata p data Hd) as H. split; [exact (sound_no_ub _ _ _ tt H Logic.I w)|].
  intros md E. specialize (H tt Logic.I). rewrite E in H. destruct H as [_ H]. split; [|split].
  - intro rs. exact (sound_no_ub _ _ _ tt (sd_get_pe_data p md rs H) Logic.I w).
  - intro o. exact (sound_no_ub _ _ _ tt (sd_get_resource_data p md o H) Logic.I w).
  - intros s rva. exact (sound_no_ub _ _ _ s (sd_load_body p md H rva) Logic.I w).
Qed.

(** Signatures and strings in blobs, from any position of the reader, even outside the blob. *)
Theorem C75_blobs : forall p heap, slice_ok heap -> forall w h, blob_heap_reader p heap h <> Ub w /\
  forall r, blob_heap_reader p heap h = Ok r tt -> forall pos, let r' := mkReader (rdata r) pos in
    read_compressed_u32 p r' <> Ub w /\ read_element_type p r' <> Ub w /\ read_field_signature p r' <> Ub w /\
    read_method_signature p r' <> Ub w /\ read_property_signature p r' <> Ub w /\ read_method_spec_sig p r' <> Ub w /\
    read_type_spec_sig p r' <> Ub w /\ read_marshal_descriptor p r' <> Ub w /\ read_utf16_str p r' <> Ub w.
Proof.
  intros p heap Hh w h. pose proof (sd_blob_heap p heap h Hh) as B.
  split; [exact (sound_no_ub _ _ _ tt B Logic.I w)|]. intros r E pos r'. specialize (B tt Logic.I). cbv beta in B. rewrite E in B. destruct B as [_ B].
  assert (F : fits r') by exact B. clearbody r'.
  repeat split; (refine (sound_no_ub fits _ _ r' _ F w));
    [apply sd_compressed|apply sd_element_type|apply sd_field_signature|apply sd_method_signature|apply sd_property_signature|apply sd_method_spec
    |apply sd_element_type|apply sd_marshal|apply sd_utf16].
Qed.

(** ** The test program, from the command line to its end *)

(** It has undefined behaviour only while the entry point is executed. *)
Theorem C75_test_program : forall p fs fuel paths rt con argument w, files_fit fs -> slice_ok rt -> slice_ok con ->
  test_program fuel p fs paths rt con argument = Ub w ->
  exists path s0 a s ai m, argument = Some path /\ new_runtime fuel p fs paths rt con = Ok tt s0 /\
    load_path fuel p fs path s0 = Ok a s /\ nth_error (c_arena s) a = Some (Some ai) /\ a_entry ai = Some m /\
    execute fuel p m [] s = Ub w.
Proof.
  intros p fs fuel paths rt con arg w F R C H. unfold test_program in H.
  unfold bind at 1, unwrap_result at 1 in H. pose proof (sd_new_runtime p fs fuel paths rt con F R C) as N.
  destruct (new_runtime fuel p fs paths rt con) as [[] s0|e s0|w0|w0|] eqn:E0; try discriminate; [|destruct (N w0 eq_refl)].
  unfold bind at 1 in H. destruct arg as [path|]; [|discriminate H]. cbn [unwrap] in H. unfold ret at 1 in H.
  unfold bind at 1, unwrap_result at 1 in H. pose proof (proj1 (proj2 (C75_load p fs F fuel s0 w)) (fst path) (snd path)) as L. rewrite <- surjective_pairing in L.
  destruct (load_path fuel p fs path s0) as [a s|e s|w0|w0|] eqn:E1; try discriminate; [|congruence].
  unfold bind at 1, the_assembly in H. destruct (nth_error (c_arena s) a) as [[ai|]|] eqn:E2; try discriminate.
  unfold bind at 1 in H. destruct (a_entry ai) as [m|] eqn:E3; [|discriminate]. cbn [unwrap] in H. unfold ret at 1 in H.
  exists path, s0, a, s, ai, m. repeat (split; [assumption || reflexivity|]). unfold bind, ret in H.
  destruct (execute fuel p m [] s) as [r s'|e s'|w0|w0|]; try discriminate. congruence.
Qed.

(** With C73: only if a hazard is met there or the entry point returns an object. *)
Theorem C75_test_program_hazards : forall p fs fuel paths rt con argument, files_fit fs -> slice_ok rt -> slice_ok con ->
  (forall path s0 a s ai m, argument = Some path -> new_runtime fuel p fs paths rt con = Ok tt s0 ->
     load_path fuel p fs path s0 = Ok a s -> nth_error (c_arena s) a = Some (Some ai) -> a_entry ai = Some m ->
     vectors s /\ (forall x, reaches p (start m [] s) x -> ~ hazard p x) /\
     (forall t o s', ~ executes p m [] s t (Done (Some (VObject o)) s'))) ->
  forall w, test_program fuel p fs paths rt con argument <> Ub w.
Proof.
  intros p fs fuel paths rt con arg F R C H w. unfold test_program.
  unfold bind at 1, unwrap_result at 1. pose proof (sd_new_runtime p fs fuel paths rt con F R C) as N.
  destruct (new_runtime fuel p fs paths rt con) as [[] s0|e s0|w0|w0|] eqn:E0; try discriminate; [|destruct (N w0 eq_refl)].
  unfold bind at 1. destruct arg as [path|]; [|discriminate]. cbn [unwrap]. unfold ret at 1.
  unfold bind at 1, unwrap_result at 1. pose proof (proj1 (proj2 (C75_load p fs F fuel s0 w)) (fst path) (snd path)) as L. rewrite <- surjective_pairing in L.
  destruct (load_path fuel p fs path s0) as [a s|e s|w0|w0|] eqn:E1; try discriminate; [|congruence].
  unfold bind at 1, the_assembly. destruct (nth_error (c_arena s) a) as [[ai|]|] eqn:E2; try discriminate.
  unfold bind at 1. destruct (a_entry ai) as [m|] eqn:E3; [|discriminate]. cbn [unwrap]. unfold ret at 1.
  destruct (H path s0 a s ai m eq_refl eq_refl E1 E2 E3) as (V & Hz & No).
  assert (Hi : history p fs paths s).
  { exists fuel, rt, con, s0. split; [exact E0|]. destruct path as [d f]. exact (later_then _ _ _ _ _ (later_now _ _ s0) (ev_load_path _ _ _ _ _ _ _ _ E1)). }
  pose proof (C73_numbers_partial p fs paths s m [] Hi V ltac:(intros o []) Hz No fuel) as X. unfold bind, ret.
  destruct (execute fuel p m [] s) as [r s'|e s'|w0|w0|]; try discriminate. destruct (X w0 eq_refl).
Qed.

(** ** Examples *)

Lemma only_fits d : slice_ok d -> files_fit (only d).
Proof. intros H x f data E. unfold only in E. repeat match type of E with (if ?b then _ else _) = _ => destruct b end; try discriminate E. now injection E as <-. Qed.
Lemma built_in_fits : slice_ok system_runtime /\ slice_ok system_console /\ slice_ok hello_image.
Proof. repeat split; vm_compute; reflexivity. Qed.

(** An image that is cut off anywhere, or has any byte changed. *)
Example C75_cut p fuel n w : load_data fuel p (only (firstn n hello_image)) (firstn n hello_image) demo_vm <> Ub w.
Proof.
  assert (H : slice_ok (firstn n hello_image)).
  { pose proof (proj2 (proj2 built_in_fits)) as X. unfold slice_ok, len in *. rewrite firstn_length. lia. }
  exact (proj1 (C75_load p _ (only_fits _ H) fuel demo_vm w) _ H).
Qed.
Example C75_changed p fuel n b w : let d := firstn n hello_image ++ b :: skipn (S n) hello_image in
  load_data fuel p (only hello_image) d demo_vm <> Ub w.
Proof.
  intro d. apply (C75_load p _ (only_fits _ (proj2 (proj2 built_in_fits)))). unfold slice_ok, d, len. rewrite app_length. cbn [List.length].
  rewrite firstn_length, skipn_length.
  pose proof (proj2 (proj2 built_in_fits)) as X. assert (Y : len hello_image < 2 ^ 62) by (vm_compute; reflexivity). unfold len in Y.
  replace (2 ^ 63) with (2 ^ 62 + 2 ^ 62) by reflexivity. assert (1 < 2 ^ 62) by reflexivity. lia.
Qed.
(** They do fail. *)
Example C75_cut_fails p : (exists e s, load_data 10 p (only hello_image) (firstn 100 hello_image) demo_vm = Err e s) /\
  (exists e, load_data 10 p (only hello_image) (firstn 500 hello_image) demo_vm = Panic e).
Proof. split; destruct p; vm_compute; eauto. Qed.

Lemma hello_vectors : vectors demo_hello.
Proof. intros a ai E. do 3 (destruct a as [|a]; [injection E as <-; vm_compute; auto 10|]). destruct a; discriminate E. Qed.
Lemma hello_history p : history p (only hello_image) [] demo_hello.
Proof.
  exists 10%nat, system_runtime, system_console, demo_vm. split; [apply hello_started|].
  exact (later_then _ _ _ _ _ (later_now _ _ demo_vm) (ev_load_path _ _ _ _ _ _ _ _ (hello_loaded p))).
Qed.

(** The same application with the length of its code reduced to three bytes, so that the code ends inside an operand. *)
Definition short_image : list byte := Eval vm_compute in firstn 440 hello_image ++ x0e :: skipn 441 hello_image.
Example C75_short p : (exists w, test_program 50 p (only short_image) [] system_runtime system_console (Some (dot, hello_exe)) = Ub w) /\
  files_fit (only short_image).
Proof. split; [destruct p; eexists; vm_compute; reflexivity|]. apply only_fits. vm_compute. reflexivity. Qed.

(** The application that prints "hi", with any amount of fuel. *)
Example C75_hello p fuel w :
  test_program fuel p (only hello_image) [] system_runtime system_console (Some (dot, hello_exe)) <> Ub w.
Proof.
  destruct built_in_fits as (R & C & Hh). apply C75_test_program_hazards; [now apply only_fits|exact R|exact C|].
  intros path s0 a s ai m Ea E0 E1 E2 E3. injection Ea as <-.
  assert (s0 = demo_vm) as ->.
  { pose proof (hello_started p hello_image) as X. destruct (Nat.le_ge_cases fuel 10) as [L|L];
    destruct (refines_new_runtime p (only hello_image) [] system_runtime system_console _ _ L demo_vm) as [Y|Y]; rewrite ?E0, ?X in Y; congruence. }
  assert (Q : a = 2%nat /\ s = demo_hello).
  { pose proof (hello_loaded p) as X. destruct (Nat.le_ge_cases fuel 10) as [L|L];
    destruct (refines_load_path p (only hello_image) _ _ (dot, hello_exe) L demo_vm) as [Y|Y]; rewrite ?E1, ?X in Y; try discriminate Y; injection Y as -> ->; auto. }
  destruct Q as [-> ->]. vm_compute in E2. injection E2 as <-. vm_compute in E3.
  split; [exact hello_vectors|]. split.
  - apply (survey_safe p 30); [exact (proj1 (history_ready _ _ _ _ (hello_history Debug)))|exact (proj1 (history_ready _ _ _ _ (hello_history p)))|].
    injection E3 as <-. destruct p; vm_compute; reflexivity.
  - intros t o s' H. destruct (proj2 (runs_run p) _ _ _ _ _ H) as [f X]. cbn [ends_as] in X.
    assert (G : exists s2, invoke (run 100 p) m CHost (new_machine demo_hello []) = Ok None s2)
      by (injection E3 as <-; eexists; destruct p; vm_compute; reflexivity). destruct G as [s2 G].
    pose proof (invoke_same _ _ _ _ _ _ _ _ X G ltac:(discriminate) ltac:(discriminate)) as Z. discriminate Z.
Qed.

Print Assumptions C75_load.
Print Assumptions C75_start.
Print Assumptions C75_metadata.
Print Assumptions C75_blobs.
Print Assumptions C75_test_program.
Print Assumptions C75_test_program_hazards.

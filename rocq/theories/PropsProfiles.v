(** Debug and release builds do the same until an arithmetic operation overflows: C76. *)
From Coq Require Import NArith ZArith String List Bool Lia.
From Coq.Strings Require Import Byte.
From Verif Require Import Base BinaryReader Pe Tables Blob Metadata Utf Runtime Loader Value Gc Interp Host
  SpecRuntime SpecHistory SpecProfiles AgreeFacts AgreeRuns QuietFacts DemoImages DemoStates DemoRuns PropsImage.
Import ListNotations.
Open Scope N_scope.

Lemma both {S A} (d r : res S A) : agree_res d r -> quiet_res r -> same_unless_overflow d r.
Proof. intros H Q. split; [|exact H]. intros (w & I & E). exact (Q w E I). Qed.
Lemma both_m {S A} (d r : M S A) : agree d r -> quiet r -> forall s, same_unless_overflow (d s) (r s).
Proof. intros H Q s. exact (both _ _ (H s) (Q s)). Qed.

(** ** Reading *)

(** Headers, metadata and the data in an image. *)
Theorem C76_image : forall data,
  same_unless_overflow (parse_pe Debug data) (parse_pe Release data) /\
  same_unless_overflow (read_metadata Debug data tt) (read_metadata Release data tt) /\
  forall md, (forall rs, same_unless_overflow (get_pe_data Debug md rs tt) (get_pe_data Release md rs tt)) /\
    (forall offset, same_unless_overflow (get_resource_data Debug md offset tt) (get_resource_data Release md offset tt)).
Proof.
  intro data. split; [exact (both _ _ (ag_parse_pe data) (qt_parse_pe data))|].
  split; [exact (both_m _ _ (ag_read_metadata data) (qt_read_metadata data) tt)|]. intro md. split.
  - intro rs. exact (both_m _ _ (ag_get_pe_data md rs) (qt_get_pe_data md rs) tt).
  - intro o. exact (both_m _ _ (ag_get_resource_data md o) (qt_get_resource_data md o) tt).
Qed.

(** Signatures and strings in blobs. *)
Theorem C76_blobs : forall heap h r,
  same_unless_overflow (blob_heap_reader Debug heap h) (blob_heap_reader Release heap h) /\
  same_unless_overflow (read_compressed_u32 Debug r) (read_compressed_u32 Release r) /\
  same_unless_overflow (read_element_type Debug r) (read_element_type Release r) /\
  same_unless_overflow (read_field_signature Debug r) (read_field_signature Release r) /\
  same_unless_overflow (read_method_signature Debug r) (read_method_signature Release r) /\
  same_unless_overflow (read_property_signature Debug r) (read_property_signature Release r) /\
  same_unless_overflow (read_method_spec_sig Debug r) (read_method_spec_sig Release r) /\
  same_unless_overflow (read_type_spec_sig Debug r) (read_type_spec_sig Release r) /\
  same_unless_overflow (read_marshal_descriptor Debug r) (read_marshal_descriptor Release r) /\
  same_unless_overflow (read_utf16_str Debug r) (read_utf16_str Release r).
Proof.
  intros heap h r. split; [exact (both _ _ (ag_blob_heap_reader heap h) (qt_blob_heap_reader heap h))|].
  split; [exact (both_m _ _ ag_read_compressed_u32 qt_read_compressed_u32 r)|].
  split; [exact (both_m _ _ ag_read_element_type qt_read_element_type r)|].
  split; [exact (both_m _ _ ag_read_field_signature qt_read_field_signature r)|].
  split; [exact (both_m _ _ ag_read_method_signature qt_read_method_signature r)|].
  split; [exact (both_m _ _ ag_read_property_signature qt_read_property_signature r)|].
  split; [exact (both_m _ _ ag_read_method_spec_sig qt_read_method_spec_sig r)|].
  split; [exact (both_m _ _ ag_read_type_spec_sig qt_read_type_spec_sig r)|].
  split; [exact (both_m _ _ ag_read_marshal_descriptor qt_read_marshal_descriptor r)|].
  exact (both_m _ _ ag_read_utf16_str qt_read_utf16_str r).
Qed.

(** ** Loading and executing *)

Theorem C76_load : forall fs fuel s,
  (forall data, same_unless_overflow (load_data fuel Debug fs data s) (load_data fuel Release fs data s)) /\
  (forall path, same_unless_overflow (load_path fuel Debug fs path s) (load_path fuel Release fs path s)) /\
  (forall n, same_unless_overflow (load_assembly fuel Debug fs n s) (load_assembly fuel Release fs n s)).
Proof.
  intros fs fuel s. split; [|split]; intro x.
  - exact (both_m _ _ (ag_load_data fuel fs x) (qt_load_data fuel fs x) s).
  - exact (both_m _ _ (ag_load_path fuel fs x) (qt_load_path fuel fs x) s).
  - exact (both_m _ _ (ag_load_assembly fuel fs x) (qt_load_assembly fuel fs x) s).
Qed.

Theorem C76_start : forall fs paths rt con fuel,
  same_unless_overflow (new_runtime fuel Debug fs paths rt con) (new_runtime fuel Release fs paths rt con).
Proof. intros. exact (both _ _ (ag_new_runtime _ _ _ _ _) (qt_new_runtime _ _ _ _ _)). Qed.

Theorem C76_execute : forall m params s fuel,
  same_unless_overflow (execute fuel Debug m params s) (execute fuel Release m params s).
Proof. intros. exact (both_m _ _ (ag_execute fuel m params) (qt_execute fuel m params) s). Qed.

Theorem C76_test_program : forall fs paths rt con argument fuel,
  same_unless_overflow (test_program fuel Debug fs paths rt con argument) (test_program fuel Release fs paths rt con argument).
Proof. intros. exact (both _ _ (ag_test_program _ _ _ _ _ _) (qt_test_program _ _ _ _ _ _)). Qed.

(** Every state that a debug build can be brought into, a release build can be brought into in the same way. *)
Lemma event_release fs s s' : event Debug fs s s' -> event Release fs s s'.
Proof.
  assert (G : forall A (d r : res vm A), agree_res d r -> (forall w, d <> Panic w) -> d = r)
    by (intros A d r [E|(w & _ & E)] N; [exact E|destruct (N w E)]).
  intro H. destruct H as [fuel data a s s' E|fuel data a s s' E|fuel d f a s s' E|fuel d f a s s' E|fuel n a s s' E|fuel n a s s' E|t u s s' E|fuel m l r s s' E].
  - eapply ev_load. rewrite <- E. symmetry. apply (G _ _ _ (ag_load_data fuel fs data s)). congruence.
  - eapply ev_load_fails. rewrite <- E. symmetry. apply (G _ _ _ (ag_load_data fuel fs data s)). congruence.
  - eapply ev_load_path. rewrite <- E. symmetry. apply (G _ _ _ (ag_load_path fuel fs (d, f) s)). congruence.
  - eapply ev_load_path_fails. rewrite <- E. symmetry. apply (G _ _ _ (ag_load_path fuel fs (d, f) s)). congruence.
  - eapply ev_load_name. rewrite <- E. symmetry. apply (G _ _ _ (ag_load_assembly fuel fs n s)). congruence.
  - eapply ev_load_name_fails. rewrite <- E. symmetry. apply (G _ _ _ (ag_load_assembly fuel fs n s)). congruence.
  - eapply ev_array. rewrite <- E. symmetry. apply (G _ _ _ (ag_array_of t s)). congruence.
  - eapply ev_execute. rewrite <- E. symmetry. apply (G _ _ _ (ag_execute fuel m l s)). congruence.
Qed.
Theorem C76_history : forall fs paths s, history Debug fs paths s -> history Release fs paths s.
Proof.
  intros fs paths s (fuel & rt & con & s0 & E & L). exists fuel, rt, con, s0. split.
  - destruct (ag_new_runtime fuel fs paths rt con) as [X|(w & _ & X)]; congruence.
  - clear E. induction L as [|s0 s s' L IH E]; [apply later_now|]. eapply later_then; [exact IH|]. now apply event_release.
Qed.

(** ** Examples *)

(** A difference that fits, and one that does not: the debug build panics, the release build goes on with the wrong number. *)
Example C76_minus : history Debug no_files [] demo_lab /\
  (exists s, execute 100 Debug (lab "Minus") (ints [-2147483648; 5]%Z) demo_lab = Panic "attempt to compute with overflow" /\
     execute 100 Release (lab "Minus") (ints [-2147483648; 5]%Z) demo_lab = Ok (RValue (VInt I32 2147483643), ints [-2147483648; 5]%Z) s) /\
  (exists s, forall p, execute 100 p (lab "Minus") (ints [7; 5]%Z) demo_lab = Ok (RValue (VInt I32 2), ints [7; 5]%Z) s).
Proof.
  split; [apply demo_lab_history|]. split; eexists; [split; vm_compute; reflexivity|]. intro p. destruct p; vm_compute; reflexivity.
Qed.
(** An array of length -1: where the debug build panics, the release build accesses memory that does not belong to the array. *)
Example C76_array : execute 100 Debug (lab "Get") (ints [-1; 0]%Z) demo_lab = Panic "arithmetic overflow" /\
  exists w, execute 100 Release (lab "Get") (ints [-1; 0]%Z) demo_lab = Ub w.
Proof. split; [vm_compute; reflexivity|]. eexists. vm_compute. reflexivity. Qed.
(** An application that both builds run to its end. *)
Example C76_hello : exists s, forall p,
  test_program 50 p (only hello_image) [] system_runtime system_console (Some (dot, hello_exe)) = Ok RVoid s.
Proof. eexists. intro p. destruct p; vm_compute; reflexivity. Qed.

Print Assumptions C76_image.
Print Assumptions C76_blobs.
Print Assumptions C76_load.
Print Assumptions C76_start.
Print Assumptions C76_execute.
Print Assumptions C76_test_program.
Print Assumptions C76_history.

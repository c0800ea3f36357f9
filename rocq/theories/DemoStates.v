(** Runtimes started with the example images.  The states are written out so that the examples
    which use them do not have to compute them again. *)
From Coq Require Import NArith String List.
From Coq.Strings Require Import Byte.
From Verif Require Import Base Tables Metadata Runtime Loader SpecHistory DemoImages.
Import ListNotations.
Open Scope N_scope.

Definition no_files : file_system := fun _ _ => Missing.
Definition state_of {A} (r : res vm A) : vm := match r with Ok _ s => s | _ => empty_vm [] end.

(** A runtime that has just been started, and the same after an application has been loaded. *)
Definition demo_vm : vm := Eval vm_compute in
  state_of (new_runtime 10 Debug no_files [] system_runtime system_console).
Definition demo_app : vm := Eval vm_compute in state_of (load_data 10 Debug no_files app_image demo_vm).

Lemma demo_vm_started p : new_runtime 10 p no_files [] system_runtime system_console = Ok tt demo_vm.
Proof. destruct p; vm_compute; reflexivity. Qed.
Lemma demo_app_loaded p : load_data 10 p no_files app_image demo_vm = Ok 2%nat demo_app.
Proof. destruct p; vm_compute; reflexivity. Qed.
Lemma demo_vm_history p : history p no_files [] demo_vm.
Proof. exists 10%nat, system_runtime, system_console, demo_vm. split; [apply demo_vm_started|constructor]. Qed.
Lemma demo_app_history p : history p no_files [] demo_app.
Proof.
  exists 10%nat, system_runtime, system_console, demo_vm. split; [apply demo_vm_started|].
  eapply later_then; [apply later_now|]. eapply ev_load. apply demo_app_loaded.
Qed.

(** The runtime with the second application. *)
Definition demo_lab : vm := Eval vm_compute in state_of (load_data 10 Debug no_files lab_image demo_vm).
Lemma demo_lab_loaded p : load_data 10 p no_files lab_image demo_vm = Ok 2%nat demo_lab.
Proof. destruct p; vm_compute; reflexivity. Qed.
Lemma demo_lab_history p : history p no_files [] demo_lab.
Proof.
  exists 10%nat, system_runtime, system_console, demo_vm. split; [apply demo_vm_started|].
  eapply later_then; [apply later_now|]. eapply ev_load. apply demo_lab_loaded.
Qed.

(** The metadata of the application. *)
Definition metadata_of (r : res unit metadata) : option metadata := match r with Ok m _ => Some m | _ => None end.
Definition demo_md : metadata :=
  ltac:(let r := eval vm_compute in (metadata_of (read_metadata Debug app_image tt)) in
        match r with Some ?m => exact m end).
Lemma demo_md_read p : metadata_of (read_metadata p app_image tt) = Some demo_md.
Proof. destruct p; vm_compute; reflexivity. Qed.

Ltac compute_each := repeat match goal with |- _ /\ _ => split end; vm_compute; reflexivity.

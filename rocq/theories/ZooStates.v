(** Runtimes started with the images of ZooImages.v. *)
From Coq Require Import NArith String List.
From Coq.Strings Require Import Byte.
From Verif Require Import Base Tables Metadata Runtime Loader SpecHistory DemoImages DemoStates ZooImages.
Import ListNotations.
Open Scope N_scope.

Definition demo_zoo : vm := Eval vm_compute in state_of (load_data 10 Debug no_files zoo_image demo_vm).
Lemma demo_zoo_loaded p : load_data 10 p no_files zoo_image demo_vm = Ok 2%nat demo_zoo.
Proof. destruct p; vm_compute; reflexivity. Qed.
Lemma demo_zoo_history p : history p no_files [] demo_zoo.
Proof.
  exists 10%nat, system_runtime, system_console, demo_vm. split; [apply demo_vm_started|].
  eapply later_then; [apply later_now|]. eapply ev_load. apply demo_zoo_loaded.
Qed.

Definition demo_client : vm := Eval vm_compute in state_of (load_data 10 Debug no_files client_image demo_zoo).
Lemma demo_client_loaded p : load_data 10 p no_files client_image demo_zoo = Ok 3%nat demo_client.
Proof. destruct p; vm_compute; reflexivity. Qed.
Lemma demo_client_history p : history p no_files [] demo_client.
Proof.
  exists 10%nat, system_runtime, system_console, demo_vm. split; [apply demo_vm_started|].
  eapply later_then; [eapply later_then; [apply later_now|]|].
  - eapply ev_load. apply demo_zoo_loaded.
  - eapply ev_load. apply demo_client_loaded.
Qed.

(** The metadata of the images. *)
Ltac md_of img := let r := eval vm_compute in (metadata_of (read_metadata Debug img tt)) in match r with Some ?m => exact m end.
Definition zoo_md : metadata := ltac:(md_of zoo_image).
Definition client_md : metadata := ltac:(md_of client_image).
Definition first_md : metadata := ltac:(md_of first_image).
Definition broken_md : metadata := ltac:(md_of broken_image).
Lemma zoo_md_read p : read_metadata p zoo_image tt = Ok zoo_md tt.
Proof. destruct p; vm_compute; reflexivity. Qed.
Lemma client_md_read p : read_metadata p client_image tt = Ok client_md tt.
Proof. destruct p; vm_compute; reflexivity. Qed.
Lemma first_md_read p : read_metadata p first_image tt = Ok first_md tt.
Proof. destruct p; vm_compute; reflexivity. Qed.
Lemma broken_md_read p : read_metadata p broken_image tt = Ok broken_md tt.
Proof. destruct p; vm_compute; reflexivity. Qed.

(** A runtime with two directories and some files. *)
Definition demo_paths : list name := [bytes_of_string "/app"; bytes_of_string "/lib"].
Definition is_file (d f : name) (x y : string) : bool := andb (bytes_eqb d (bytes_of_string x)) (bytes_eqb f (bytes_of_string y)).
Definition demo_files : file_system := fun d f =>
  if is_file d f "/app" "Zoo.exe" then File zoo_image
  else if is_file d f "/lib" "Zoo.dll" then File lab_image
  else if is_file d f "/lib" "Client.dll" then File client_image
  else if is_file d f "/lib" "Client.exe" then File app_image
  else if is_file d f "/app" "Locked.dll" then Unreadable
  else Missing.
Definition demo_disk : vm := Eval vm_compute in state_of (new_runtime 10 Debug demo_files demo_paths system_runtime system_console).
Lemma demo_disk_started p : new_runtime 10 p demo_files demo_paths system_runtime system_console = Ok tt demo_disk.
Proof. destruct p; vm_compute; reflexivity. Qed.
Definition demo_disk_client : vm := Eval vm_compute in state_of (load_assembly 10 Debug demo_files (bytes_of_string "Client") demo_disk).
Lemma demo_disk_client_loaded p : load_assembly 10 p demo_files (bytes_of_string "Client") demo_disk = Ok 3%nat demo_disk_client.
Proof. destruct p; vm_compute; reflexivity. Qed.

(** The client with the name of a type it refers to changed to one that there is not. *)
Definition odd_image : list byte := Eval vm_compute in firstn 739 client_image ++ [Byte.x58] ++ skipn 740 client_image.
Definition odd_md : metadata := ltac:(md_of odd_image).
Lemma odd_md_read p : read_metadata p odd_image tt = Ok odd_md tt.
Proof. destruct p; vm_compute; reflexivity. Qed.

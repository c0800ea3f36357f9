(** Specification: which files of a disk loads depend on. *)
From Coq Require Import NArith String List.
From Coq.Strings Require Import Byte.
From Verif Require Import Base Loader Runtime SpecLoader.
Import ListNotations.

(** What is found for an assembly name: the first of its candidates where there is something, and what is
    there. *)
Definition found (fs : file_system) (paths : list name) (n : name) (c : name * name) (e : entry) : Prop :=
  first_there (fun c => fs (fst c) (snd c) <> Missing) (candidates paths n) c /\ fs (fst c) (snd c) = e.
(** On both disks the same is found for every assembly name. *)
Definition same_finds (fs1 fs2 : file_system) (paths : list name) : Prop :=
  forall n c e, found fs1 paths n c e <-> found fs2 paths n c e.

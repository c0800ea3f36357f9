(** What can happen to a runtime: the histories over which the properties of the registries are
    quantified. *)
From Coq Require Import NArith String List Bool.
From Coq.Strings Require Import Byte.
From Verif Require Import Base Runtime Loader Value Gc Interp.
Import ListNotations.
Open Scope N_scope.

Section History.
  Variables (p : profile) (fs : file_system) (paths : list name).

  (** One call on the runtime that comes back: an assembly load, by data, by path or by name,
      that succeeds or fails, the creation of an array type, or the execution of a method, with
      any outcome. *)
  Inductive event : vm -> vm -> Prop :=
  | ev_load fuel data a s s' : load_data fuel p fs data s = Ok a s' -> event s s'
  | ev_load_fails fuel data e s s' : load_data fuel p fs data s = Err e s' -> event s s'
  | ev_load_path fuel d f a s s' : load_path fuel p fs (d, f) s = Ok a s' -> event s s'
  | ev_load_path_fails fuel d f e s s' : load_path fuel p fs (d, f) s = Err e s' -> event s s'
  | ev_load_name fuel n a s s' : load_assembly fuel p fs n s = Ok a s' -> event s s'
  | ev_load_name_fails fuel n e s s' : load_assembly fuel p fs n s = Err e s' -> event s s'
  | ev_array t u s s' : array_of p t s = Ok u s' -> event s s'
  | ev_execute fuel m params r s s' : execute fuel p m params s = Ok r s' -> event s s'.

  (** Any number of calls. *)
  Inductive later : vm -> vm -> Prop :=
  | later_now s : later s s
  | later_then s s' s'' : later s s' -> event s' s'' -> later s s''.

  (** A runtime that has been started and then used in any way. *)
  Definition history (s : vm) : Prop :=
    exists fuel rt con s0, new_runtime fuel p fs paths rt con = Ok tt s0 /\ later s0 s.
End History.

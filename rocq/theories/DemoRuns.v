(** The methods of the example applications, by name. *)
From Coq Require Import NArith ZArith String List Bool.
From Coq.Strings Require Import Byte.
From Verif Require Import Base Metadata Runtime Value Gc Interp DemoStates.
Import ListNotations.
Open Scope N_scope.

Definition no_method : method_info := mkMethod [] 0%nat 0%nat [] INone false false false.
Definition method_of (s : vm) (n : string) : method_info :=
  match nth_error (c_arena s) 2 with
  | Some (Some ai) =>
      match find (fun m => bytes_eqb (mt_name m) (bytes_of_string n)) (a_method_defs ai) with
      | Some m => m
      | None => no_method
      end
  | _ => no_method
  end.
Definition lab (n : string) : method_info := method_of demo_lab n.
Definition app (n : string) : method_info := method_of demo_app n.
Definition ints (l : list Z) : list value := map (VInt I32) l.

(** Executing a method more than once: what happens to a runtime between two executions, and when a runtime differs
    from another one by its output only. *)
From Coq Require Import NArith String List Bool.
From Coq.Strings Require Import Byte.
From Verif Require Import Base Runtime Value Gc Interp.
Import ListNotations.
Open Scope N_scope.

Section Use.
  Variable p : profile.

  (** Any number of executions that come back, whether with a result or with an error message, and of array types
      asked for by the host. *)
  Inductive used : vm -> vm -> Prop :=
  | used_not s : used s s
  | used_execute fuel m params r s s1 s2 : execute fuel p m params s = Ok r s1 -> used s1 s2 -> used s s2
  | used_array t u s s1 s2 : array_of p t s = Ok u s1 -> used s1 s2 -> used s s2.
End Use.

(** [s'] is [s] with [text] after its output. *)
Definition only_prints (text : list N) (s s' : vm) : Prop :=
  c_paths s' = c_paths s /\ c_assemblies s' = c_assemblies s /\ c_arena s' = c_arena s /\ c_types s' = c_types s /\
  c_type_map s' = c_type_map s /\ c_next_id s' = c_next_id s /\ c_primitives s' = c_primitives s /\
  c_output s' = c_output s ++ text.

(** The name of an array type: something followed by [[]]. *)
Definition array_name (n : name) : Prop := exists element, n = element ++ bytes_of_string "[]".

(** The names that executions look up: those of the class library and of array types. *)
Definition looked_up (n : name) : Prop := (exists rest, n = bytes_of_string "System." ++ rest) \/ array_name n.
(** No type registered between [s] and [s'] is called System.Void, or has such a name and the name of a type that was
    there before. *)
Definition new_names (s s' : vm) : Prop :=
  forall j x, (List.length (c_types s) <= j)%nat -> nth_error (c_types s') j = Some x ->
    ti_full_name x <> bytes_of_string "System.Void" /\
    (looked_up (ti_full_name x) -> forall i y, nth_error (c_types s) i = Some y -> ti_full_name x <> ti_full_name y).

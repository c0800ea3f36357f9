(** What objects are, for the statement of properties about what becomes of them. *)
From Coq Require Import NArith ZArith String List Bool.
From Coq.Strings Require Import Byte.
From Verif Require Import Base Runtime Value Gc Interp SpecBytes SpecExec SpecFrames SpecStack SpecRuntime SpecTypes SpecHeap SpecSafety.
Import ListNotations.
Open Scope N_scope.

(** The program can use the reference [o]: it is on the operand stack, in a variable, or among the
    parameters that the host has given. *)
Definition at_hand (s : machine) (o : obj) : Prop :=
  In (VObject o) (x_operands s) \/ In (VObject o) (k_cells (x_frames s)) \/ In (VObject o) (x_host s).

(** [o] is an object of the type [t]; an array of [n] elements of the type [t].  (For strings see
    [string_value].) *)
Definition is_object (s : machine) (o : obj) (t : tref) : Prop :=
  exists ti id, nth_error (c_types (x_vm s)) t = Some ti /\ encodes 4 (ti_id ti) id /\ stored s o 0 ([x00] ++ id).
Definition is_array (s : machine) (o : obj) (t : tref) (n : N) : Prop :=
  exists ti id eid l, nth_error (c_types (x_vm s)) t = Some ti /\ List.length id = 4%nat /\
    encodes 4 (ti_id ti) eid /\ encodes 8 n l /\ stored s o 0 ([x02] ++ id ++ eid ++ l).

(** An execution that the host starts with numbers, and that meets no hazard. *)
Definition sheltered (p : profile) (m : method_info) (params : list value) (s : vm) : Prop :=
  (forall o, ~ In (VObject o) params) /\ forall x, reaches p (start m params s) x -> ~ hazard p x.

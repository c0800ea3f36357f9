(** Specification: where the type is that a type reference names (ECMA-335 II.22.38). *)
From Coq Require Import NArith List.
From Coq.Strings Require Import Byte.
From Verif Require Import Base Tables Metadata Runtime SpecBody SpecLoader SpecTypes.
Import ListNotations.
Open Scope N_scope.

(** The type [t] was defined by an assembly called [n]. *)
Definition defined_by (s : vm) (t : tref) (n : name) : Prop :=
  exists ti ai, nth_error (c_types s) t = Some ti /\ nth_error (c_arena s) (ti_assembly ti) = Some (Some ai) /\ a_name ai = n.

(** The row names a type of full name [fn]. *)
Definition refers_to (md : metadata) (row : type_ref_row) (fn : name) : Prop :=
  exists n ns, heap_text md (tr_name row) n /\ heap_text md (tr_namespace row) ns /\ fn = qualified n ns.

(** Its scope is the assembly called [n]: the type is one of that assembly. *)
Definition of_assembly (md : metadata) (row : type_ref_row) (n : name) : Prop :=
  exists k r, tr_resolution_scope row = mkRef TAssemblyRef k /\ row_of (tb_assembly_ref (m_tables md)) k r /\
    heap_text md (ar_name r) n.
(** Its scope is the type of another row: the type is one that is nested in that type. *)
Definition nested_in (md : metadata) (row outer : type_ref_row) : Prop :=
  exists k, tr_resolution_scope row = mkRef TTypeRef k /\ row_of (tb_type_ref (m_tables md)) k outer.

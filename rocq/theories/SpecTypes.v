(** Specification vocabulary for the relations between types: inheritance, interfaces and sizes. *)
From Coq Require Import NArith String List Bool.
From Coq.Strings Require Import Byte.
From Verif Require Import Base Runtime.
Import ListNotations.
Open Scope N_scope.

(** ** Inheritance, over the list of registered types *)
Section Types.
  Variable ts : list type_info.

  Definition is_named (t : tref) (n : name) : Prop :=
    exists ti, nth_error ts t = Some ti /\ ti_full_name ti = n.

  (** [u] is [t] or one of its transitive bases. *)
  Inductive ancestor : tref -> tref -> Prop :=
  | itself t : ancestor t t
  | by_base t ti u v : nth_error ts t = Some ti -> ti_base ti = Some u -> ancestor u v -> ancestor t v.

  (** The types that [t] is an instance of, given by their names: itself, its transitive bases, and
      the interfaces that it or one of them implements. *)
  Inductive instance (t : tref) (n : name) : Prop :=
  | of_class u : ancestor t u -> is_named u n -> instance t n
  | of_interface u ui i : ancestor t u -> nth_error ts u = Some ui -> In i (ti_interfaces ui) -> is_named i n ->
      instance t n.

  (** The same, with only the interfaces of a type that has no base. *)
  Inductive rooted (t : tref) (n : name) : Prop :=
  | rooted_class u : ancestor t u -> is_named u n -> rooted t n
  | rooted_interface u ui i : ancestor t u -> nth_error ts u = Some ui -> ti_base ui = None ->
      In i (ti_interfaces ui) -> is_named i n -> rooted t n.

  (** ** Sizes *)

  (** The widths of the primitive types in bytes. *)
  Definition widths : list (string * N) :=
    [("System.Boolean"%string, 1); ("System.SByte"%string, 1); ("System.Byte"%string, 1);
     ("System.Char"%string, 2); ("System.Int16"%string, 2); ("System.UInt16"%string, 2);
     ("System.Int32"%string, 4); ("System.UInt32"%string, 4); ("System.Single"%string, 4);
     ("System.Int64"%string, 8); ("System.UInt64"%string, 8); ("System.Double"%string, 8)].
  Definition width (t : tref) (k : N) : Prop :=
    exists s, In (s, k) widths /\ is_named t (bytes_of_string s).

  Definition value_type (t : tref) : Prop := rooted t (bytes_of_string "System.ValueType").

  (** The space for the instance fields of a type, its bases included: primitive types have their
      width, a field of another type takes eight bytes if it holds a reference and the size of its
      type otherwise. *)
  Inductive size : tref -> N -> Prop :=
  | size_primitive t k : width t k -> size t k
  | size_root t ti n : nth_error ts t = Some ti -> (forall k, ~ width t k) -> ti_base ti = None ->
      fields_size (ti_fields ti) n -> size t n
  | size_derived t ti b n m : nth_error ts t = Some ti -> (forall k, ~ width t k) -> ti_base ti = Some b ->
      fields_size (ti_fields ti) n -> size b m -> size t (n + m)
  with fields_size : list field_info -> N -> Prop :=
  | fields_none : fields_size [] 0
  | fields_static f l n : f_static f = true -> fields_size l n -> fields_size (f :: l) n
  | fields_one f l n k : f_static f = false -> storage (f_type f) k -> fields_size l n -> fields_size (f :: l) (n + k)
  with storage : tref -> N -> Prop :=
  | by_reference t : ~ value_type t -> storage t 8
  | by_value t n : value_type t -> size t n -> storage t n.
End Types.

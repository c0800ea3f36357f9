(** Specification vocabulary for the layout of objects: the class hierarchies without references
    and static fields, whose types are registered before they are used, and the space that they
    take. *)
From Coq Require Import NArith String List Bool.
From Coq.Strings Require Import Byte.
From Verif Require Import Base Runtime SpecTypes.
Import ListNotations.
Open Scope N_scope.

Section Layout.
  Variable ts : list type_info.

  (** [u] descends from [System.ValueType], by types registered before [t]. *)
  Definition struct_before (t u : tref) : Prop :=
    exists v, ancestor (firstn t ts) u v /\ is_named (firstn t ts) v (bytes_of_string "System.ValueType").

  (** [layout t l n]: [l] are the instance fields of [t], those of its bases first, and [n] is the
      number of bytes that they take.  [takes u k]: a variable of the value type [u] has [k]
      bytes. *)
  Inductive layout : tref -> list field_info -> N -> Prop :=
  | layout_root t ti n :
      nth_error ts t = Some ti -> (forall k, ~ width ts t k) -> ti_base ti = None ->
      values t (ti_fields ti) n -> layout t (ti_fields ti) n
  | layout_derived t ti b l m n :
      nth_error ts t = Some ti -> (forall k, ~ width ts t k) -> ti_base ti = Some b -> (b < t)%nat ->
      layout b l m -> values t (ti_fields ti) n -> layout t (l ++ ti_fields ti) (m + n)
  (** The fields that [t] adds: all of value types. *)
  with values : tref -> list field_info -> N -> Prop :=
  | values_none t : values t [] 0
  | values_one t f l k n :
      f_static f = false -> (f_type f < t)%nat -> struct_before t (f_type f) -> takes (f_type f) k ->
      values t l n -> values t (f :: l) (k + n)
  with takes : tref -> N -> Prop :=
  | takes_primitive u k : width ts u k -> takes u k
  | takes_struct u l n : layout u l n -> takes u n.
End Layout.

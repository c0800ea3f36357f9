(** Specification vocabulary for the offsets of fields: what the runtime knew about every type at
    the moment when it placed a field. *)
From Coq Require Import NArith List Bool Arith.
From Coq.Strings Require Import Byte.
From Verif Require Import Base Runtime SpecTypes.
Import ListNotations.
Open Scope N_scope.

(** The types of an assembly are [first], [first + 1], ..., [first + count - 1], and they get their
    members in this order.  Type [u] as it was when type [t] of the assembly had got [k] fields:
    the types of other assemblies were complete; those of the assembly had no interfaces, and those
    behind [t] had neither a base nor fields. *)
Definition as_then (first count t k u : nat) (ti : type_info) : type_info :=
  if (u <? first)%nat then ti
  else
    let waiting := ((t <? u) && (u <? first + count))%nat%bool in
    mkType (ti_assembly ti) (ti_id ti) (ti_name ti) (ti_namespace ti) (ti_full_name ti) (ti_kind ti) (ti_abstract ti)
      (if waiting then None else ti_base ti)
      (if waiting then [] else if (u =? t)%nat then firstn k (ti_fields ti) else ti_fields ti)
      (ti_methods ti) [] (ti_field_map ti) (ti_method_map ti).
Definition types_then (ts : list type_info) (first count t k : nat) : list type_info :=
  map (fun '(u, ti) => as_then first count t k u ti) (combine (seq 0 (List.length ts)) ts).

Definition sum (l : list N) : N := fold_right N.add 0 l.

(** The fields of type [t] begin behind the [base] bytes of its base.  Each one, static or not, is
    followed by as many bytes as an object of its type had at that moment, even if the field holds
    a reference; [sizes] are these numbers.  Offsets wrap in a release build and not in a debug
    build. *)
Record offsets (p : profile) (ts : list type_info) (first count t : nat) (ti : type_info)
    (base : N) (sizes : list N) : Prop := {
  of_base : match ti_base ti with
            | None => base = 0
            | Some b => size (types_then ts first count t 0) b base
            end;
  of_count : List.length sizes = List.length (ti_fields ti);
  of_sizes : forall k f z, nth_error (ti_fields ti) k = Some f -> nth_error sizes k = Some z ->
             size (types_then ts first count t (S k)) (f_type f) z;
  of_offset : forall k f, nth_error (ti_fields ti) k = Some f ->
              f_offset f = (base + sum (firstn k sizes)) mod 2 ^ 64 /\
              (p = Debug -> f_offset f = base + sum (firstn k sizes)) }.

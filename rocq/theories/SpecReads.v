(** Specification vocabulary: reading elements one after another. *)
From Coq Require Import NArith List.
From Coq.Strings Require Import Byte.
From Verif Require Import Base BinaryReader.
Import ListNotations.
Open Scope N_scope.

(** [count] reads of [size] bytes each, made one after another from the reader [r], give
    [elems] and leave the reader [r']. *)
Inductive one_by_one (p : profile) (size : N) : nat -> reader -> list (list byte) -> reader -> Prop :=
| One_none r : one_by_one p size 0 r [] r
| One_more count r x r1 elems r2 :
    read p size r = Ok (Some x) r1 -> one_by_one p size count r1 elems r2 ->
    one_by_one p size (S count) r (x :: elems) r2.

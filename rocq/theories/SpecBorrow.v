(** The rules of [RefCell]: any number of shared borrows of a cell at a time, or one exclusive borrow.
    Taking a borrow that breaks the rule panics. *)
From Coq Require Import List.
Import ListNotations.

Inductive mode := Shared | Exclusive.

Section Cells.
  Context {cell : Type}.
  (** The borrows that are held: the guards that have not been dropped. *)
  Definition guards : Type := list (mode * cell).

  (** [borrow()] panics while an exclusive borrow of the cell is held, [borrow_mut()] while any is. *)
  Definition refused (held : guards) (m : mode) (c : cell) : Prop :=
    exists m', In (m', c) held /\ (m = Exclusive \/ m' = Exclusive).
End Cells.

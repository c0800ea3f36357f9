(** Specification: the names of parameters (ECMA-335 II.22.33). *)
From Coq Require Import NArith List.
From Coq.Strings Require Import Byte.
From Verif Require Import Base Tables Metadata Runtime SpecBody SpecLoader.
Import ListNotations.
Open Scope N_scope.

(** Row [q] of the Param table, [r], is one of those of the method of row [k]: they go from the one
    named in its row to the one before that of the next method. *)
Definition param_of (md : metadata) (k q : N) (r : param_row) : Prop :=
  belongs (map me_param_list (tb_method_def (m_tables md))) q k /\ row_of (tb_param (m_tables md)) q r.

(** The tables call the parameter of position [i] (counted from 0) of the method of row [k] by the name
    [n]: the rows of the method are told apart by their sequence numbers, of which 0 is the result
    and 1 the first parameter. *)
Definition called (md : metadata) (k : N) (i : nat) (n : name) : Prop :=
  exists q r, param_of md k q r /\ pm_index r = N.of_nat i + 1 /\ heap_text md (pm_name r) n.

(** They give it no name. *)
Definition uncalled (md : metadata) (k : N) (i : nat) : Prop :=
  forall q r, param_of md k q r -> pm_index r <> N.of_nat i + 1.

(** The rows of the method are numbered one by one, beginning with [first]. *)
Definition numbered (md : metadata) (k first : N) : Prop :=
  exists row, row_of (tb_method_def (m_tables md)) k row /\
    forall q r, param_of md k q r -> pm_index r = q - me_param_list row + first.

(** Specification: hexadecimal numbers, and names that can be told apart inside a text. *)
From Coq Require Import NArith String List.
From Coq.Strings Require Import Byte.
From Verif Require Import Base Runtime.
Import ListNotations.
Open Scope N_scope.

(** The digits [ds] are the number [v], the most significant digit first. *)
Inductive hex_number : list byte -> N -> Prop :=
| hex_none : hex_number [] 0
| hex_more ds v c d : hex_number ds v ->
    nth_error (bytes_of_string "0123456789abcdef") (N.to_nat d) = Some c ->
    hex_number (ds ++ [c]) (16 * v + d).

(** A name without spaces, commas and parentheses, and not empty. *)
Definition plain (n : name) : Prop :=
  n <> [] /\ forall c, In c n -> c <> x20 /\ c <> x2c /\ c <> x28 /\ c <> x29.

(** The name (without its namespace) of the type [t]. *)
Definition short_name (s : vm) (t : tref) (n : name) : Prop :=
  exists ti, nth_error (c_types s) t = Some ti /\ ti_name ti = n.

(** The names that the text of a method has: that of the type of its result, its own, and those of the types
    of its parameters. *)
Definition shown (s : vm) (m : method_info) (result own : name) (params : list name) : Prop :=
  short_name s (mt_return m) result /\ mt_name m = own /\
  Forall2 (fun a n => short_name s (pa_type a) n) (mt_params m) params.

(** Names with a comma and a space between them. *)
Fixpoint joined (l : list name) : name :=
  match l with
  | [] => []
  | [n] => n
  | n :: l' => n ++ bytes_of_string ", " ++ joined l'
  end.

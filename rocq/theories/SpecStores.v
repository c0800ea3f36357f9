(** The way from one place of an execution to another, and the instructions that store to the heap, for the
    statement of properties about what changes there. *)
From Coq Require Import NArith ZArith String List Bool.
From Coq.Strings Require Import Byte.
From Verif Require Import Base Runtime Value Gc Interp SpecBytes SpecExec SpecFrames SpecStack SpecRuntime SpecTypes SpecHeap SpecSafety SpecAges.
Import ListNotations.
Open Scope N_scope.

(** From one place, execution comes to the other one by way of the moments [t]: all instructions in between,
    those of calls included, and the texts written. *)
Inductive travels (p : profile) : place -> list moment -> place -> Prop :=
| travels_none x : travels p x [] x
| travels_instruction f fr s fr1 s1 t x : step f p fr s = Ok (ONext fr1) s1 ->
    travels p (InFrame fr1 s1) t x -> travels p (InFrame fr s) (At fr s :: t) x
| travels_to_call f fr s m args r fr1 s1 t x : step f p fr s = Ok (OCall m args r fr1) s1 ->
    travels p (Calling m args s1) t x -> travels p (InFrame fr s) (At fr s :: t) x
| travels_into_call m b args s fr s1 t x : mt_impl m = IIL b -> enters m b args s fr s1 ->
    travels p (InFrame fr s1) t x -> travels p (Calling m args s) t x
| travels_past_call f fr s m args r fr1 s1 t1 v s2 t2 x : step f p fr s = Ok (OCall m args r fr1) s1 ->
    calls p m args s1 t1 (Done v s2) ->
    travels p (InFrame fr1 (with_operands s2 (then_push (then_push (x_operands s2) v) r))) t2 x ->
    travels p (InFrame fr s) (At fr s :: t1 ++ t2) x.

(** The instruction at hand stores [k] bytes at the distance [d] behind the reference [o]: stfld, to a field
    behind the five bytes of the header of an object, with the width of the value; stelem.i4, to an element
    behind the seventeen bytes of the header of an array. *)
Inductive stores (fr : frame) (s : machine) (o : obj) : N -> N -> Prop :=
| stores_field tok f v rest k : instruction fr (x7d :: tok) -> List.length tok = 4%nat ->
    denotes_field (x_vm s) (fr_assembly fr) (Z.to_N (number tok)) f ->
    x_operands s = v :: VObject o :: rest -> width_of v = Some k ->
    stores fr s o (5 + f_offset f) k
| stores_element x i rest : instruction fr [x9e] ->
    x_operands s = VInt I32 x :: VInt I32 i :: VObject o :: rest ->
    stores fr s o (17 + 4 * Z.to_N (i mod 2 ^ 64)) 4.

(** The [n] bytes from [a] on and the [m] bytes from [b] on have none in common. *)
Definition clear_of (a n b m : N) : Prop := a + n <= b \/ b + m <= a.

(** On the way [t], nothing is stored to the [n] bytes of the heap from [a] on; to the [n] bytes at the
    distance [d] behind the reference [o]. *)
Definition spared (t : list moment) (a n : N) : Prop :=
  forall fr s o d k, In (At fr s) t -> stores fr s o d k -> clear_of a n (o_off o + d) k.
Definition unassigned (t : list moment) (o : obj) (d n : N) : Prop :=
  forall fr s d' k, In (At fr s) t -> stores fr s o d' k -> clear_of d n d' k.

(** [o] is an array of numbers of 32 bits, and the one at [i] is [x]. *)
Definition element_value (s : machine) (o : obj) (i : N) (x : Z) : Prop :=
  exists t n bs, is_named (c_types (x_vm s)) t (bytes_of_string "System.Int32") /\ is_array s o t n /\ i < n /\
    represents (VInt I32 x) bs /\ stored s o (17 + 4 * i) bs.

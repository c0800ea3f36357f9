(** Specification vocabulary for the runtime's registries: what it means for the list of types,
    the name index and the identifiers to be consistent, and how the runtime may evolve.
    Stated on the observable parts of the state only. *)
From Coq Require Import NArith String List Bool.
From Coq.Strings Require Import Byte.
From Verif Require Import Base Runtime.
Import ListNotations.
Open Scope N_scope.

(** The type at position [i] is the one most recently registered under the name [n]. *)
Definition latest (ts : list type_info) (n : name) (i : nat) : Prop :=
  (exists ti, nth_error ts i = Some ti /\ ti_full_name ti = n) /\
  (forall j tj, (i < j)%nat -> nth_error ts j = Some tj -> ti_full_name tj <> n).

(** No type is registered under the name [n]. *)
Definition unnamed (ts : list type_info) (n : name) : Prop :=
  forall ti, In ti ts -> ti_full_name ti <> n.

(** ** References that point to registered types *)

Section Valid.
  (** The number of registered types and the number of assembly objects. *)
  Variables (nt na : nat).
  Definition v_type_ref (t : tref) : Prop := (t < nt)%nat.
  Definition v_field (f : field_info) : Prop := v_type_ref (f_type f) /\ v_type_ref (f_declaring f).
  Definition v_opt (o : option tref) : Prop := match o with Some t => v_type_ref t | None => True end.
  Definition v_body (b : body) : Prop :=
    Forall v_type_ref (b_locals b) /\ Forall (fun c => v_opt (cl_catch c)) (b_clauses b).
  Definition v_impl (i : implementation) : Prop :=
    match i with IIL b => v_body b | _ => True end.
  Definition v_method (m : method_info) : Prop :=
    v_type_ref (mt_declaring m) /\ v_type_ref (mt_return m) /\
    Forall (fun q => v_type_ref (pa_type q)) (mt_params m) /\ v_impl (mt_impl m).
  Definition v_type (ti : type_info) : Prop :=
    (ti_assembly ti < na)%nat /\ v_opt (ti_base ti) /\ Forall v_field (ti_fields ti) /\
    Forall v_method (ti_methods ti) /\ Forall v_type_ref (ti_interfaces ti) /\
    Forall (fun kv => v_field (snd kv)) (ti_field_map ti) /\
    Forall (fun kv => v_method (snd kv)) (ti_method_map ti).
  Definition v_assembly (ai : assembly_info) : Prop :=
    Forall v_type_ref (a_types ai) /\
    match a_entry ai with Some m => v_method m | None => True end /\
    Forall v_method (a_method_defs ai) /\ Forall v_method (a_method_refs ai) /\
    Forall v_field (a_fields ai) /\ Forall v_type_ref (a_type_refs ai).
  Definition v_primitives (q : primitives) : Prop :=
    v_type_ref (pt_sbyte q) /\ v_type_ref (pt_byte q) /\ v_type_ref (pt_short q) /\
    v_type_ref (pt_ushort q) /\ v_type_ref (pt_int q) /\ v_type_ref (pt_uint q) /\
    v_type_ref (pt_long q) /\ v_type_ref (pt_ulong q) /\ v_type_ref (pt_float q) /\
    v_type_ref (pt_double q) /\ v_type_ref (pt_object q).
End Valid.

(** A live assembly. *)
Definition alive (s : vm) (a : aref) : Prop := exists ai, nth_error (c_arena s) a = Some (Some ai).

(** A consistent runtime.  Identifiers are 32-bit numbers: a debug build stops before they run
    out, a release build starts again at zero. *)
Record consistent (p : profile) (s : vm) : Prop := {
  ids_ok : forall i ti, nth_error (c_types s) i = Some ti -> ti_id ti = N.of_nat i mod 2 ^ 32;
  next_ok : c_next_id s = len (c_types s) mod 2 ^ 32;
  bound_ok : p = Debug -> len (c_types s) < 2 ^ 32;
  map_ok : forall n, match map_get bytes_eqb n (c_type_map s) with
                     | Some i => latest (c_types s) n i
                     | None => unnamed (c_types s) n
                     end;
  types_ok : Forall (v_type (List.length (c_types s)) (List.length (c_arena s))) (c_types s);
  arena_ok : forall a ai, nth_error (c_arena s) a = Some (Some ai) ->
             v_assembly (List.length (c_types s)) ai;
  loaded_ok : Forall (alive s) (c_assemblies s);
  prims_ok : match c_primitives s with
             | Some q => v_primitives (List.length (c_types s)) q
             | None => True
             end }.

(** What never changes about a registered type. *)
Definition same_identity (t u : type_info) : Prop :=
  ti_id t = ti_id u /\ ti_name t = ti_name u /\ ti_namespace t = ti_namespace u /\
  ti_full_name t = ti_full_name u /\ ti_assembly t = ti_assembly u /\ ti_abstract t = ti_abstract u.

(** The registries after the runtime has moved on from [s] to [s']: everything that was there is
    still there, unchanged and in the same place. *)
Record evolves (s s' : vm) : Prop := {
  ev_paths : c_paths s' = c_paths s;
  ev_output : c_output s' = c_output s;
  ev_prims : c_primitives s' = c_primitives s;
  ev_loaded : exists l, c_assemblies s' = c_assemblies s ++ l;
  ev_types : exists l, c_types s' = c_types s ++ l;
  ev_arena : exists l, c_arena s' = c_arena s ++ l }.

(** The same with execution, which also writes to the console. *)
Record grows (s s' : vm) : Prop := {
  gr_paths : c_paths s' = c_paths s;
  gr_output : exists l, c_output s' = c_output s ++ l;
  gr_prims : c_primitives s' = c_primitives s;
  gr_loaded : exists l, c_assemblies s' = c_assemblies s ++ l;
  gr_types : exists l, c_types s' = c_types s ++ l;
  gr_arena : exists l, c_arena s' = c_arena s ++ l }.

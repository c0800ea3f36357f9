(** C72: overlapping borrows. *)
From Coq Require Import List Lia Arith.
From Verif Require Import SpecBorrow Borrows.
Import ListNotations.

(** What a function borrows, at most. *)
Definition effect : Type := mode -> cell -> Prop.
Definition registry : effect := fun m c => c = Registry.
Definition reads : effect := fun m c => m = Shared.
Definition both (A B : effect) : effect := fun m c => A m c \/ B m c.
Definition of (n : nat) : effect := fun m c => owner c = Some n.
Definition apart (m : mode) (c : cell) (E : effect) : Prop := forall m', E m' c -> m = Shared /\ m' = Shared.
Definition inside (A B : effect) : Prop := forall m c, A m c -> B m c.

Definition does (f : fn) : effect :=
  match f with
  | new_runtime | load_assembly | load_assembly_from_path | load_assembly_from_data | load_builtin_assemblies | execute | assembly_load => both reads registry
  | get_type | get_internal_method | output | managed_type | type_of | raw_object_get | array_set | as_slice | exception_clause_new =>
      fun m c => m = Shared /\ c = Registry
  | next_type_id | type_load _ | get_type_for_element_type | get_or_create_array_type | array_of | field_load | method_load | method_body_load | console_write => registry
  | entry_point _ | resolve_method _ | resolve_field _ | resolve_type _ => fun m c => m = Shared /\ c <> Registry
  | base _ | all_fields _ | get_field _ | all_methods _ | get_method _ | kind _ | instance_of _ | is_reference_type _ | size _ | method_display _ | raw_data =>
      fun m c => m = Shared /\ forall i, c <> Heap i
  | resolve t a => both (both (fun m c => m = Shared /\ forall i, c <> Heap i) registry) (both (of t) (of a))
  | resolve_base t | resolve_kind t | resolve_methods t => both (both (fun m c => m = Shared /\ forall i, c <> Heap i) registry) (of t)
  | resolve_fields t a => both (both (fun m c => m = Shared /\ forall i, c <> Heap i) registry) (both (of t) (of a))
  | alloc _ | alloc_array _ | alloc_string _ => both (fun m c => m = Shared /\ forall i, c <> Heap i) registry
  | interpreter_execute i | frame_execute i | method_call i => both (both reads registry) (of i)
  end.

Fixpoint needs (a : code) : effect :=
  match a with
  | Done => fun _ _ => False
  | Then a b | Either a b => both (needs a) (needs b)
  | Many a => needs a
  | Any k => fun m c => exists n, needs (k n) m c
  | New k => fun m c => exists n, needs (k n) m c /\ owner c <> Some n
  | Hold m c a => fun m' c' => (m' = m /\ c' = c) \/ needs a m' c'
  | Call f => does f
  end.
(** Nothing inside is refused because of a guard that is taken inside. *)
Fixpoint calm (a : code) : Prop :=
  match a with
  | Done | Call _ => True
  | Then a b | Either a b => calm a /\ calm b
  | Many a => calm a
  | Any k | New k => forall n, calm (k n)
  | Hold m c a => apart m c (needs a) /\ calm a
  end.

Lemma calm_body f : calm (body f).
Proof.
  destruct f; cbn -[does]; repeat (match goal with |- _ /\ _ => split | |- forall _ : nat, _ => intro end); try exact I;
  unfold apart, both; cbn -[does]; intros; try contradiction;
  repeat match goal with H : _ \/ _ |- _ => destruct H | H : exists _, _ |- _ => destruct H | H : _ /\ _ |- _ => destruct H end; subst;
  cbn in *; unfold both, registry, reads, of in *; cbn in *;
  repeat match goal with H : _ \/ _ |- _ => destruct H | H : exists _, _ |- _ => destruct H | H : _ /\ _ |- _ => destruct H end; subst; try discriminate; auto.
  all: try contradiction; match goal with H : forall i0, Heap ?i <> Heap i0 |- _ => destruct (H i eq_refl) end.
Qed.
Lemma needs_body f : inside (needs (body f)) (does f).
Proof.
  intros m c. destruct f; cbn -[does]; unfold both; intros;
  repeat match goal with H : _ \/ _ |- _ => destruct H | H : exists _, _ |- _ => destruct H | H : _ /\ _ |- _ => destruct H | H : False |- _ => destruct H end; subst;
  cbn in *; unfold both, registry, reads, of in *; cbn in *;
  repeat match goal with H : _ \/ _ |- _ => destruct H | H : exists _, _ |- _ => destruct H | H : _ /\ _ |- _ => destruct H end; subst; cbn in *;
  try contradiction; try solve [repeat split; auto; try congruence; intros; discriminate]; auto.
Qed.

(** A clash comes from a guard that was held from the start. *)
Lemma clash_from held a : clash held a -> calm a -> exists m c, In (m, c) held /\ exists m', needs a m' c /\ (m = Exclusive \/ m' = Exclusive).
Proof.
  induction 1 as [held m c a R|held m c a H IH|held a b H IH|held a b H IH|held a b H IH|held a b H IH|held a H IH|held k n H IH|held k n F H IH|held f H IH];
    cbn [calm needs]; intro C.
  - destruct R as (m' & I & D). exists m', c. split; [exact I|]. exists m. split; [auto|tauto].
  - destruct C as [A C]. destruct (IH C) as (m1 & c1 & [[= <- <-]|I] & m' & N & D).
    + destruct (A _ N) as [-> ->]. destruct D; discriminate.
    + exists m1, c1. split; [exact I|]. exists m'. auto.
  - destruct (IH (proj1 C)) as (m1 & c1 & I & m' & N & D). exists m1, c1. split; [exact I|]. exists m'. split; [now left|exact D].
  - destruct (IH (proj2 C)) as (m1 & c1 & I & m' & N & D). exists m1, c1. split; [exact I|]. exists m'. split; [now right|exact D].
  - destruct (IH (proj1 C)) as (m1 & c1 & I & m' & N & D). exists m1, c1. split; [exact I|]. exists m'. split; [now left|exact D].
  - destruct (IH (proj2 C)) as (m1 & c1 & I & m' & N & D). exists m1, c1. split; [exact I|]. exists m'. split; [now right|exact D].
  - exact (IH C).
  - destruct (IH (C n)) as (m1 & c1 & I & m' & N & D). exists m1, c1. split; [exact I|]. exists m'. split; [now exists n|exact D].
  - destruct (IH (C n)) as (m1 & c1 & I & m' & N & D). exists m1, c1. split; [exact I|]. exists m'. split; [|exact D]. exists n. split; [exact N|exact (F _ _ I)].
  - destruct (IH (calm_body f)) as (m1 & c1 & I & m' & N & D). exists m1, c1. split; [exact I|]. exists m'. split; [exact (needs_body f _ _ N)|exact D].
Qed.

(** ** C72 *)

(** No function of the runtime, started when no guard is held, panics because of the borrows that it
    and the functions it calls take: starting, loading, looking up, running. *)
Theorem C72_own_borrows f : ~ clash [] (Call f).
Proof. intro H. destruct (clash_from _ _ H Logic.I) as (m & c & [] & _). Qed.

(** The functions that the embedding program can call while it holds guards, and whether they change
    the registry of types and assemblies or its output. *)
Inductive public : fn -> bool -> Prop :=
| pub_load : public load_assembly true
| pub_load_path : public load_assembly_from_path true
| pub_load_data : public load_assembly_from_data true
| pub_execute : public execute true
| pub_array_of : public array_of true
| pub_get_type : public get_type false
| pub_output : public output false
| pub_entry_point a : public (entry_point a) false
| pub_resolve_method a : public (resolve_method a) false
| pub_resolve_field a : public (resolve_field a) false
| pub_resolve_type a : public (resolve_type a) false
| pub_base t : public (base t) false
| pub_all_fields t : public (all_fields t) false
| pub_get_field t : public (get_field t) false
| pub_all_methods t : public (all_methods t) false
| pub_get_method t : public (get_method t) false
| pub_kind t : public (kind t) false
| pub_instance_of t : public (instance_of t) false
| pub_is_reference_type t : public (is_reference_type t) false
| pub_size t : public (size t) false
| pub_display m : public (method_display m) false
| pub_type_of : public type_of false
| pub_get : public raw_object_get false
| pub_set : public array_set false
| pub_slice : public as_slice false.

Lemma fresh (held : @guards cell) : exists n, forall m c, In (m, c) held -> owner c <> Some n.
Proof.
  assert (X : exists b, forall m c k, In (m, c) held -> owner c = Some k -> k < b).
  { induction held as [|[m c] l [b IH]]; [exists 0; intros m c k []|].
    exists (S (Nat.max b (match owner c with Some k => k | None => 0 end))).
    intros m' c' k [[= <- <-]|I] E; [rewrite E; lia|]. specialize (IH _ _ _ I E). lia. }
  destruct X as [b B]. exists b. intros m c I E. specialize (B _ _ _ I E). lia.
Qed.

(** The guards that the embedding program can hold are shared ones: of the types and assemblies of the
    runtime, the fields, methods and interfaces of a type, the types of an assembly, the parameters of a
    method.  A call can clash with them exactly if it changes the registry while the types or assemblies
    of the runtime are being looked at. *)
Theorem C72_guards_partial held f b : public f b -> (forall m c, In (m, c) held -> m = Shared) ->
  (clash held (Call f) <-> b = true /\ In (Shared, Registry) held).
Proof.
  intros P S. split.
  - intro H. destruct (clash_from _ _ H Logic.I) as (m & c & I & m' & N & D). pose proof (S _ _ I) as ->.
    destruct D as [D| ->]; [discriminate|].
    destruct P; cbn in N; unfold both, reads, registry in N; try (destruct N as [N|N]; [discriminate|subst c; auto]); try (subst c; auto);
      destruct N as [N _]; discriminate.
  - intros [-> I]. assert (R : refused held Exclusive Registry) by (exists Shared; auto).
    assert (L : clash held (Call assembly_load)).
    { apply clash_call. cbn [body]. do 4 apply clash_second. apply clash_here. exact R. }
    inversion P; subst; apply clash_call; cbn [body].
    + apply clash_second. apply clash_call. cbn [body]. apply clash_call. cbn [body]. exact L.
    + apply clash_call. cbn [body]. exact L.
    + exact L.
    + apply clash_first. destruct (fresh held) as [n F]. apply (clash_new _ _ n); [exact F|]. apply clash_call. cbn [body].
      apply clash_left. apply clash_right. apply clash_call. cbn [body]. apply clash_here. exact R.
    + apply clash_call. cbn [body]. apply clash_second, clash_first, clash_call. cbn [body]. apply clash_here. exact R.
Qed.
(** So a program that goes through the types of a runtime and asks each for its array type can panic:
    [for t in clr.types().iter() { t.array_of(); }]. *)
Theorem C72_types_refuted : clash [(Shared, Registry)] (Call array_of).
Proof.
  apply (C72_guards_partial [(Shared, Registry)] array_of true pub_array_of); [|split; [reflexivity|now left]].
  intros m c [[= <- <-]|[]]. reflexivity.
Qed.

(** The guards of a program that looks at the fields of a type while it loads another image. *)
Example C72_guards_example : public load_assembly_from_data true /\ (forall m c, In (m, c) [(Shared, FieldList 7)] -> m = Shared) /\
  ~ In (Shared, Registry) [(Shared, FieldList 7)].
Proof. split; [constructor|]. split; [intros m c [[= <- <-]|[]]; reflexivity|intros [H|[]]; discriminate]. Qed.
(** Some guards are held while others are taken: the fields of a type while its size is computed. *)
Example C72_own_example : exists held, held <> [] /\ ~ clash held (Call (size 7)) /\ held = [(Shared, FieldList 7); (Shared, Registry)].
Proof.
  eexists. split; [|split; [|reflexivity]]; [discriminate|]. intro H. apply (C72_guards_partial _ _ _ (pub_size 7)) in H as [H _]; [discriminate|].
  intros m c [[= <- <-]|[[= <- <-]|[]]]; reflexivity.
Qed.

Print Assumptions C72_own_borrows.
Print Assumptions C72_guards_partial.
Print Assumptions C72_types_refuted.

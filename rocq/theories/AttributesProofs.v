(** Lemmas for C28. *)
From Coq Require Import NArith ZArith List Bool Lia.
From Verif Require Import Base BaseFacts Attributes SpecAttributes.
Open Scope N_scope.

Lemma land_field raw lo n :
  N.land raw (N.shiftl (N.ones n) lo) = bits raw lo n * 2 ^ lo.
Proof.
  unfold bits. rewrite <- N.shiftl_mul_pow2, <- N.shiftr_div_pow2, <- N.land_ones.
  apply N.bits_inj. intro k.
  rewrite N.land_spec.
  destruct (N.le_gt_cases lo k) as [L|L].
  - rewrite !N.shiftl_spec_high' by auto.
    rewrite N.land_spec, N.shiftr_spec' .
    f_equal. f_equal. lia.
  - rewrite !N.shiftl_spec_low by auto. now rewrite andb_false_r.
Qed.

Lemma bits_lt raw lo n : bits raw lo n < 2 ^ n.
Proof. unfold bits. apply N.mod_lt. apply N.pow_nonzero. lia. Qed.

(** A single-bit mask. *)
Lemma has_flag raw k b : has raw (2 ^ k) = b <-> flag raw k b.
Proof.
  unfold has, flag.
  assert (E : N.land raw (2 ^ k) = bits raw k 1 * 2 ^ k).
  { rewrite <- land_field. f_equal. now rewrite N.shiftl_mul_pow2, N.mul_1_l. }
  rewrite E. pose proof (bits_lt raw k 1) as L. change (2 ^ 1) with 2 in L.
  assert (2 ^ k <> 0) by (apply N.pow_nonzero; lia).
  assert (bits raw k 1 = 0 \/ bits raw k 1 = 1) as [Z|Z] by lia; rewrite Z.
  - rewrite N.mul_0_l. destruct (N.eqb_spec 0 (2 ^ k)); [lia|]. destruct b; split; intro; congruence || lia.
  - rewrite N.mul_1_l, N.eqb_refl. destruct b; split; intro; congruence || lia.
Qed.

Ltac flags :=
  repeat match goal with
  | |- flag ?raw ?k (has ?raw ?m) =>
      apply (has_flag raw k (has raw m)); reflexivity
  end.

Lemma lt_8_cases x : x < 8 -> x = 0 \/ x = 1 \/ x = 2 \/ x = 3 \/ x = 4 \/ x = 5 \/ x = 6 \/ x = 7.
Proof. lia. Qed.
Lemma lt_4_cases x : x < 4 -> x = 0 \/ x = 1 \/ x = 2 \/ x = 3.
Proof. lia. Qed.
Lemma lt_2_cases x : x < 2 -> x = 0 \/ x = 1.
Proof. lia. Qed.

(** Every enumeration field is recovered exactly by its [match]. *)
Lemma enum_spec {A} (f : N -> option A) (code : A -> N) lo n raw mask :
  (forall x, x < 2 ^ n -> forall a, f (x * 2 ^ lo) = Some a <-> x = code a) ->
  mask = N.shiftl (N.ones n) lo ->
  forall a, f (N.land raw mask) = Some a <-> bits raw lo n = code a.
Proof.
  intros H -> a. rewrite land_field. apply H. apply bits_lt.
Qed.

Ltac enum_tac :=
  intros x Hx v;
  match type of Hx with x < 2 ^ ?n =>
    let m := eval vm_compute in (2 ^ n) in change (2 ^ n) with m in Hx end;
  let L := fresh in
  first [ assert (L : x = 0 \/ x = 1) by lia; destruct L as [L|L]
        | pose proof (lt_4_cases x Hx) as L; destruct L as [L|[L|[L|L]]]
        | pose proof (lt_8_cases x Hx) as L; destruct L as [L|[L|[L|[L|[L|[L|[L|L]]]]]]] ];
  subst x; cbn; destruct v; cbn; split; intro E; try discriminate; reflexivity.


Ltac enum_lemma :=
  intros raw a;
  match goal with |- ?f raw = Some a <-> bits raw ?lo ?n = ?code a =>
    unfold f;
    match goal with |- ?t = Some a <-> _ =>
      match t with context [N.land raw ?m] =>
        let g := (eval pattern (N.land raw m) in t) in
        match g with ?h _ => apply (enum_spec h code lo n raw m); [enum_tac|reflexivity] end
      end
    end
  end.

Definition not_code (b : bool) : N := if b then 0 else 1.

Lemma type_visibility_spec : forall raw a,
  type_visibility_from_raw raw = Some a <-> bits raw 0 3 = type_visibility_code a.
Proof. enum_lemma. Qed.
Lemma type_layout_spec : forall raw a,
  type_layout_from_raw raw = Some a <-> bits raw 3 2 = type_layout_code a.
Proof. enum_lemma. Qed.
Lemma type_semantics_spec : forall raw a,
  type_semantics_from_raw raw = Some a <-> bits raw 5 1 = type_semantics_code a.
Proof. enum_lemma. Qed.
Lemma type_format_spec : forall raw a,
  type_string_format_from_raw raw = Some a <-> bits raw 16 2 = type_format_code a.
Proof. enum_lemma. Qed.
Lemma member_visibility_spec : forall raw a,
  member_visibility_from_raw raw = Some a <-> bits raw 0 3 = member_visibility_code a.
Proof. enum_lemma. Qed.
Lemma code_type_spec : forall raw a,
  code_type_from_raw raw = Some a <-> bits raw 0 2 = code_type_code a.
Proof. enum_lemma. Qed.
Lemma managed_spec : forall raw a,
  managed_from_raw raw = Some a <-> bits raw 2 1 = not_code a.
Proof. enum_lemma. Qed.
Lemma reuse_slot_spec : forall raw a,
  reuse_slot_from_raw raw = Some a <-> bits raw 8 1 = not_code a.
Proof. enum_lemma. Qed.
Lemma charset_spec : forall raw a,
  charset_from_raw raw = Some a <-> bits raw 1 2 = charset_code a.
Proof. enum_lemma. Qed.
Lemma calling_convention_spec : forall raw a,
  calling_convention_from_raw raw = Some a <-> bits raw 8 3 = calling_convention_code a.
Proof. enum_lemma. Qed.
Lemma variance_spec : forall raw a,
  variance_from_raw raw = Some a <-> bits raw 0 2 = variance_code a.
Proof. enum_lemma. Qed.

Lemma flag_negb raw k b : flag raw k (negb b) <-> bits raw k 1 = not_code b.
Proof. unfold flag. destruct b; reflexivity. Qed.

Lemma flag_has_pow raw k m : m = 2 ^ k -> flag raw k (has raw m).
Proof. intros ->. now apply has_flag. Qed.

(** Close one field of a forward direction. *)
Ltac fwd :=
  match goal with
  | |- flag _ _ (has _ _) => apply flag_has_pow; reflexivity
  | H : _ = Some ?a |- bits _ _ _ = _ =>
      first [ exact (proj1 (type_visibility_spec _ _) H) | exact (proj1 (type_layout_spec _ _) H)
            | exact (proj1 (type_semantics_spec _ _) H) | exact (proj1 (type_format_spec _ _) H)
            | exact (proj1 (member_visibility_spec _ _) H) | exact (proj1 (code_type_spec _ _) H)
            | exact (proj1 (charset_spec _ _) H) | exact (proj1 (calling_convention_spec _ _) H)
            | exact (proj1 (variance_spec _ _) H) ]
  | H : _ = Some ?a |- flag _ _ (negb ?a) =>
      apply flag_negb; first [ exact (proj1 (managed_spec _ _) H) | exact (proj1 (reuse_slot_spec _ _) H) ]
  end.

(** Turn the word predicate into equations for the decoder. *)
Ltac bwd :=
  repeat match goal with
  | H : _ /\ _ |- _ => destruct H
  | H : flag ?raw ?k (negb _) |- _ => apply flag_negb in H
  | H : flag ?raw ?k ?b |- _ =>
      let m := eval vm_compute in (2 ^ k) in
      apply has_flag in H; change (2 ^ k) with m in H; rewrite ?H
  | H : bits _ _ _ = _ |- _ =>
      first [ apply type_visibility_spec in H | apply type_layout_spec in H
            | apply type_semantics_spec in H | apply type_format_spec in H
            | apply member_visibility_spec in H | apply code_type_spec in H
            | apply charset_spec in H | apply calling_convention_spec in H
            | apply variance_spec in H | apply managed_spec in H | apply reuse_slot_spec in H ];
      rewrite H
  end.

Ltac destruct_opts :=
  repeat match goal with
  | |- context [match ?o with Some _ => _ | None => _ end] =>
      match o with ?f ?raw => let E := fresh "E" in destruct (f raw) eqn:E; [|discriminate] end
  end.

Ltac word_spec f w :=
  intros raw a; unfold f, w; split;
  [ destruct_opts; let X := fresh in intro X; injection X as <-; cbn -[has]; repeat split; fwd
  | intro; bwd; destruct a; reflexivity ].

Lemma type_attributes_spec : forall raw a,
  type_attributes_from_raw raw = Some a <-> type_attributes_word raw a.
Proof. word_spec type_attributes_from_raw type_attributes_word. Qed.
Lemma field_attributes_spec : forall raw a,
  field_attributes_from_raw raw = Some a <-> field_attributes_word raw a.
Proof. word_spec field_attributes_from_raw field_attributes_word. Qed.
Lemma method_impl_attributes_spec : forall raw a,
  method_impl_attributes_from_raw raw = Some a <-> method_impl_attributes_word raw a.
Proof. word_spec method_impl_attributes_from_raw method_impl_attributes_word. Qed.
Lemma method_attributes_spec : forall raw a,
  method_attributes_from_raw raw = Some a <-> method_attributes_word raw a.
Proof. word_spec method_attributes_from_raw method_attributes_word. Qed.
Lemma pinvoke_attributes_spec : forall raw a,
  pinvoke_attributes_from_raw raw = Some a <-> pinvoke_attributes_word raw a.
Proof. word_spec pinvoke_attributes_from_raw pinvoke_attributes_word. Qed.
Lemma generic_param_attributes_spec : forall raw a,
  generic_param_attributes_from_raw raw = Some a <-> generic_param_attributes_word raw a.
Proof. word_spec generic_param_attributes_from_raw generic_param_attributes_word. Qed.

Ltac plain_spec f w :=
  intros raw a; unfold f, w; split;
  [ intros <-; cbn -[has]; repeat split; fwd | intro; bwd; destruct a; reflexivity ].

Lemma param_attributes_spec : forall raw a,
  param_attributes_from_raw raw = a <-> param_attributes_word raw a.
Proof. plain_spec param_attributes_from_raw param_attributes_word. Qed.
Lemma event_attributes_spec : forall raw a,
  event_attributes_from_raw raw = a <-> event_attributes_word raw a.
Proof. plain_spec event_attributes_from_raw event_attributes_word. Qed.
Lemma property_attributes_spec : forall raw a,
  property_attributes_from_raw raw = a <-> property_attributes_word raw a.
Proof. plain_spec property_attributes_from_raw property_attributes_word. Qed.
Lemma assembly_flags_spec : forall raw a,
  assembly_flags_from_raw raw = a <-> assembly_flags_word raw a.
Proof. plain_spec assembly_flags_from_raw assembly_flags_word. Qed.

(** Enumerations given by the whole word. *)
Ltac whole f :=
  intros raw a; split;
  [ let H := fresh in
    unfold f;
    repeat match goal with
           | |- match ?x with _ => _ end = _ -> _ => destruct x
           end;
    intro H; try discriminate H; injection H as <-; reflexivity
  | intros ->; destruct a; reflexivity ].

Lemma hash_algorithm_spec : forall raw a,
  hash_algorithm_from_raw raw = Some a <-> raw = hash_algorithm_code a.
Proof. whole hash_algorithm_from_raw. Qed.
Lemma method_semantics_spec : forall raw a,
  method_semantics_from_raw raw = Some a <-> raw = method_semantics_code a.
Proof. whole method_semantics_from_raw. Qed.
Lemma constant_type_spec : forall raw a,
  constant_type_from_raw raw = Some a <-> raw = constant_type_code a.
Proof. whole constant_type_from_raw. Qed.

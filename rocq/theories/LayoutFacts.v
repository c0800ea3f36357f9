(** The offsets that the loader gives to fields. *)
From Coq Require Import NArith ZArith String List Bool Lia Arith.
From Coq.Strings Require Import Byte.
From Verif Require Import Base BaseFacts BinaryReader Pe Attributes Tables Blob Metadata Runtime Loader SpecRuntime
  RuntimeInv Value Opcodes Gc Interp InterpInv SpecExec SpecFrames InterpFacts FrameFacts TraceFacts VmFacts
  TypeFacts SpecHistory HistoryProofs SpecTypes SpecLayout.
Import ListNotations.
Open Scope N_scope.

Scheme layout_mut := Minimality for layout Sort Prop
  with values_mut := Minimality for values Sort Prop
  with takes_mut := Minimality for takes Sort Prop.
Combined Scheme layouts_ind from layout_mut, values_mut, takes_mut.

(** ** What the layout depends on *)

Definition core (ti : type_info) : name * option tref * list field_info := (ti_full_name ti, ti_base ti, ti_fields ti).
Definition alike (n : nat) (ts ts' : list type_info) : Prop :=
  forall i, (i < n)%nat -> option_map core (nth_error ts' i) = option_map core (nth_error ts i).
Lemma alike_le n m ts ts' : (m <= n)%nat -> alike n ts ts' -> alike m ts ts'.
Proof. intros L H i Hi. apply H. lia. Qed.
Lemma alike_sym n ts ts' : alike n ts ts' -> alike n ts' ts.
Proof. intros H i Hi. symmetry. auto. Qed.
Lemma alike_nth n ts ts' i ti : alike n ts ts' -> (i < n)%nat -> nth_error ts i = Some ti ->
  exists ti', nth_error ts' i = Some ti' /\ core ti' = core ti.
Proof.
  intros H L E. specialize (H i L). rewrite E in H. destruct (nth_error ts' i) as [x|]; [|discriminate].
  exists x. split; [reflexivity|]. cbn [option_map] in H. congruence.
Qed.
Lemma alike_named n ts ts' i x : alike n ts ts' -> (i < n)%nat -> is_named ts i x -> is_named ts' i x.
Proof.
  intros H L (ti & E & N). destruct (alike_nth _ _ _ _ _ H L E) as (ti' & E' & C). exists ti'. split; [exact E'|].
  injection C as C _ _. congruence.
Qed.
Lemma alike_width n ts ts' i k : alike n ts ts' -> (i < n)%nat -> width ts i k -> width ts' i k.
Proof. intros H L (x & Hx & N). exists x. split; [exact Hx|]. eapply alike_named; eauto. Qed.
Lemma nth_firstn {A} (l : list A) : forall n i, nth_error (firstn n l) i = if Nat.ltb i n then nth_error l i else None.
Proof.
  induction l as [|x l IH]; intros [|n] [|i]; cbn [firstn nth_error]; try reflexivity.
  - now destruct (Nat.ltb (S i) (S n)).
  - exact (IH n i).
Qed.
Lemma alike_firstn n ts ts' : alike n ts ts' -> forall k, alike k (firstn n ts) (firstn n ts').
Proof. intros H k i _. rewrite !nth_firstn. destruct (Nat.ltb_spec i n); [now apply H|reflexivity]. Qed.
Lemma alike_ancestor ts ts' : (forall k, alike k ts ts') -> forall t u, ancestor ts t u -> ancestor ts' t u.
Proof.
  intros H t u A. induction A as [|t ti u v E B A IH]; [constructor|].
  destruct (alike_nth _ _ _ _ _ (H (S t)) (Nat.lt_succ_diag_r t) E) as (ti' & E' & C).
  eapply by_base; [exact E'| |exact IH]. injection C as _ C _. congruence.
Qed.
Lemma alike_struct n ts ts' u : alike n ts ts' -> struct_before ts n u -> struct_before ts' n u.
Proof.
  intros H (v & A & N). exists v. pose proof (alike_firstn _ _ _ H) as F. split.
  - eapply alike_ancestor; eauto.
  - eapply alike_named; [apply (F (S v))|lia|exact N].
Qed.
Lemma alike_layouts ts :
  (forall t l n, layout ts t l n -> forall ts', alike (S t) ts ts' -> layout ts' t l n) /\
  (forall t l n, values ts t l n -> forall ts', alike t ts ts' -> values ts' t l n) /\
  (forall u k, takes ts u k -> forall ts', alike (S u) ts ts' -> takes ts' u k).
Proof.
  assert (NW : forall t ts', (forall k, ~ width ts t k) -> alike (S t) ts ts' -> forall k, ~ width ts' t k).
  { intros t ts' N A k W. apply (N k). eapply alike_width; [apply alike_sym; exact A|lia|exact W]. }
  apply layouts_ind.
  - intros t ti n E N B V IH ts' A. destruct (alike_nth _ _ _ _ _ A (Nat.lt_succ_diag_r t) E) as (ti' & E' & C).
    injection C as _ C2 C3. rewrite <- C3. apply layout_root; [exact E'|eauto|congruence|].
    rewrite C3. apply IH. eapply alike_le; [|exact A]. lia.
  - intros t ti b l m n E N B L La IHb V IH ts' A. destruct (alike_nth _ _ _ _ _ A (Nat.lt_succ_diag_r t) E) as (ti' & E' & C).
    injection C as _ C2 C3. rewrite <- C3. apply layout_derived with b; [exact E'|eauto|congruence|exact L| |].
    + apply IHb. eapply alike_le; [|exact A]. lia.
    + rewrite C3. apply IH. eapply alike_le; [|exact A]. lia.
  - constructor.
  - intros t f l k n St L SB T IHT V IH ts' A. constructor; auto.
    + eapply alike_struct; eauto.
    + apply IHT. eapply alike_le; [|exact A]. lia.
  - intros u k W ts' A. apply takes_primitive. eapply alike_width; [exact A|lia|exact W].
  - intros u l n La IH ts' A. apply takes_struct with l. auto.
Qed.
Lemma alike_takes ts ts' u k : alike (S u) ts ts' -> takes ts u k -> takes ts' u k.
Proof. intros A T. exact (proj2 (proj2 (alike_layouts ts)) _ _ T _ A). Qed.
Lemma alike_layout ts ts' t l n : alike (S t) ts ts' -> layout ts t l n -> layout ts' t l n.
Proof. intros A T. exact (proj1 (alike_layouts ts) _ _ _ T _ A). Qed.

(** ** The layout gives the size *)

Lemma ancestor_whole ts n t u : ancestor (firstn n ts) t u -> ancestor ts t u.
Proof.
  induction 1 as [|t ti u v E B A IH]; [constructor|]. rewrite nth_firstn in E.
  destruct (Nat.ltb t n); [|discriminate]. eapply by_base; eauto.
Qed.
Lemma struct_value ts t u : struct_before ts t u -> value_type ts u.
Proof.
  intros (v & A & (vi & E & N)). apply rooted_class with v; [eapply ancestor_whole; eauto|].
  rewrite nth_firstn in E. destruct (Nat.ltb v t); [|discriminate]. exists vi. auto.
Qed.
Lemma fields_size_snoc ts f k l n : f_static f = false -> storage ts (f_type f) k -> fields_size ts l n -> fields_size ts (f :: l) (k + n).
Proof. intros. rewrite N.add_comm. now apply fields_one. Qed.
Lemma layout_sizes ts :
  (forall t l n, layout ts t l n -> size ts t n) /\
  (forall t l n, values ts t l n -> fields_size ts l n) /\
  (forall u k, takes ts u k -> size ts u k).
Proof.
  apply layouts_ind.
  - intros. eapply size_root; eauto.
  - intros t ti b l m n E N B L La IHb V IH. rewrite N.add_comm. eapply size_derived; eauto.
  - constructor.
  - intros t f l k n St L SB T IHT V IH. apply fields_size_snoc; auto. constructor; [eapply struct_value; eauto|exact IHT].
  - intros u k W. now apply size_primitive.
  - auto.
Qed.
Lemma takes_size ts u k : takes ts u k -> size ts u k.
Proof. apply (layout_sizes ts). Qed.
Lemma takes_unique ts u k k' : takes ts u k -> takes ts u k' -> k = k'.
Proof. intros A B. eapply size_unique; eapply takes_size; eauto. Qed.

(** ** The offsets of the fields *)

Section Good.
  Variable p : profile.
  (** The fields [l] of type [t] follow each other from [o] to [o']. *)
  Inductive placed (ts : list type_info) (t : tref) : N -> list field_info -> N -> Prop :=
  | placed_nil o : placed ts t o [] o
  | placed_cons o f l o1 o2 : computed p o (f_offset f) ->
      (forall k, takes ts (f_type f) k -> (f_type f < t)%nat -> o1 = o + k) ->
      placed ts t o1 l o2 -> placed ts t o (f :: l) o2.
  (** Where the fields that a type adds begin. *)
  Definition begins (ts : list type_info) (t : tref) (b : option tref) (o : N) : Prop :=
    match b with
    | None => o = 0
    | Some b => forall l m, (b < t)%nat -> layout ts b l m -> o = m
    end.
  Definition good (ts : list type_info) (t : tref) (ti : type_info) : Prop :=
    ti_fields ti = [] \/ exists o o', begins ts t (ti_base ti) o /\ placed ts t o (ti_fields ti) o'.
  Definition laid (ts : list type_info) : Prop := forall t ti, nth_error ts t = Some ti -> good ts t ti.
  (** No type from [n] on has fields. *)
  Definition bare (n : nat) (ts : list type_info) : Prop :=
    forall i ti, (n <= i)%nat -> nth_error ts i = Some ti -> ti_fields ti = [].

  Lemma placed_alike ts ts' t : alike t ts ts' -> forall o l o', placed ts t o l o' -> placed ts' t o l o'.
  Proof.
    intros A o l o' H. induction H as [|o f l o1 o2 C K P IH]; [constructor|]. econstructor; eauto.
    intros k T L. apply K; [|exact L]. eapply alike_takes; [|exact T]. apply alike_sym. eapply alike_le; [|exact A]. lia.
  Qed.
  Lemma begins_alike ts ts' t b o : alike t ts ts' -> begins ts t b o -> begins ts' t b o.
  Proof.
    intros A. destruct b as [b|]; [|auto]. intros H l m L La. apply (H l m L). eapply alike_layout; [|exact La].
    apply alike_sym. eapply alike_le; [|exact A]. lia.
  Qed.
  Lemma good_alike ts ts' t ti ti' : alike t ts ts' -> core ti' = core ti -> good ts t ti -> good ts' t ti'.
  Proof.
    intros A C. unfold good. injection C as _ -> ->. intros [E|(o & o' & B & P)]; [now left|right].
    exists o, o'. split; [eapply begins_alike|eapply placed_alike]; eauto.
  Qed.
  Lemma placed_snoc ts t o l o1 f o2 : placed ts t o l o1 -> computed p o1 (f_offset f) ->
    (forall k, takes ts (f_type f) k -> (f_type f < t)%nat -> o2 = o1 + k) -> placed ts t o (l ++ [f]) o2.
  Proof. induction 1; cbn [app]; intros; econstructor; eauto; constructor. Qed.
End Good.

(** ** Steps that add types without members *)

(** A type without members. *)
Definition blank (ti : type_info) : Prop :=
  ti_fields ti = [] /\ ti_methods ti = [] /\ ti_interfaces ti = [] /\ ti_field_map ti = [] /\ ti_method_map ti = [].
Definition sprouts (s s' : vm) : Prop := exists l, c_types s' = c_types s ++ l /\ Forall blank l.
Lemma sprouts_refl s : sprouts s s.
Proof. exists []. split; [now rewrite app_nil_r|constructor]. Qed.
Lemma sprouts_eq s s' : c_types s' = c_types s -> sprouts s s'.
Proof. intro E. exists []. split; [now rewrite app_nil_r|constructor]. Qed.
Lemma sprouts_trans a b c : sprouts a b -> sprouts b c -> sprouts a c.
Proof. intros (l & E & F) (k & E' & F'). exists (l ++ k). split; [now rewrite E', E, app_assoc|]. apply Forall_app; auto. Qed.

Lemma sprouts_alike n s s' : sprouts s s' -> (n <= List.length (c_types s))%nat -> alike n (c_types s) (c_types s').
Proof. intros (l & -> & _) L i Hi. now rewrite nth_error_app1 by lia. Qed.
Lemma sprouts_nth s s' i ti : sprouts s s' -> nth_error (c_types s') i = Some ti ->
  nth_error (c_types s) i = Some ti \/ ti_fields ti = [].
Proof.
  intros (l & E & F) H. rewrite E in H. destruct (Nat.lt_ge_cases i (List.length (c_types s))) as [L|L].
  - left. now rewrite nth_error_app1 in H.
  - right. rewrite nth_error_app2 in H by exact L. apply nth_error_In in H. rewrite Forall_forall in F. now apply F.
Qed.
Lemma sprouts_laid p s s' : sprouts s s' -> laid p (c_types s) -> laid p (c_types s').
Proof.
  intros S H t ti E. destruct (sprouts_nth _ _ _ _ S E) as [E'|E']; [|now left].
  eapply good_alike; [|reflexivity|exact (H _ _ E')]. apply sprouts_alike; [exact S|].
  apply nth_lt in E'. lia.
Qed.
Lemma sprouts_bare n s s' : sprouts s s' -> bare n (c_types s) -> bare n (c_types s').
Proof. intros S H i ti L E. destruct (sprouts_nth _ _ _ _ S E) as [E'|E']; [eauto|exact E']. Qed.

Definition sprouting {A} (m : M vm A) : Prop :=
  forall s, match m s with Ok _ s' | Err _ s' => sprouts s s' | _ => True end.
Lemma sp_pure {A} (m : M vm A) : pure m -> sprouting m.
Proof. intros H s. specialize (H s). destruct (m s); subst; auto using sprouts_refl. Qed.
Lemma sp_bind {A B} (m : M vm A) (k : A -> M vm B) : sprouting m -> (forall a, sprouting (k a)) -> sprouting (bind m k).
Proof.
  intros Hm Hk s. unfold bind. specialize (Hm s). destruct (m s) as [a s1|e s1|w|w|]; auto.
  specialize (Hk a s1). destruct (k a s1); auto; eapply sprouts_trans; eauto.
Qed.
Lemma sp_map_err {A} (m : M vm A) e : sprouting m -> sprouting (map_err m e).
Proof. intros H s. specialize (H s). unfold map_err. destruct (m s); auto. Qed.
Lemma sp_unwrap_result {A} (m : M vm A) : sprouting m -> sprouting (unwrap_result m).
Proof. intros H s. specialize (H s). unfold unwrap_result. destruct (m s); auto. Qed.
Lemma sp_map_m {A B} (f : A -> M vm B) : (forall x, sprouting (f x)) -> forall l, sprouting (map_m f l).
Proof.
  intro H. induction l as [|x l IH]; cbn [map_m]; [apply sp_pure, pure_ret|].
  apply sp_bind; [apply H|intro y]. apply sp_bind; [exact IH|intro ys]. apply sp_pure, pure_ret.
Qed.
Lemma pure_with_reader {A} r (m : M reader A) : pure (S := vm) (with_reader r m).
Proof. intro s. unfold with_reader. destruct (m r); auto. Qed.
Lemma pure_row_at {A} p (rows : list A) h : pure (row_at p rows h).
Proof. apply pure_lift. Qed.
Lemma pure_ok_or {S A} (o : option A) e : pure (S := S) (ok_or o e).
Proof. destruct o; [apply pure_ret|apply pure_fail]. Qed.
Lemma pure_map_err {S A} (m : M S A) e : pure m -> pure (map_err m e).
Proof. intros H s. specialize (H s). unfold map_err. destruct (m s); auto. Qed.
Lemma pure_type_def_or_ref_name p md h : pure (type_def_or_ref_name p md h).
Proof. intro s. apply type_def_or_ref_name_state. Qed.

Ltac spr := repeat first
  [ apply sp_pure; first [apply pure_ret | apply pure_fail | apply pure_panic | apply pure_ub | apply pure_nofuel
      | apply pure_lift | apply pure_with_reader | apply pure_row_at | apply pure_ok_or | apply pure_unwrap | apply pure_ovf
      | apply pure_the_type | apply pure_the_assembly | apply pure_get_type | apply pure_named | apply pure_type_def_or_ref_name ]
  | apply sp_map_err | apply sp_unwrap_result
  | lazymatch goal with |- sprouting (bind _ _) => apply sp_bind; [|intro] end ].

Lemma sp_next_type_id p : sprouting (next_type_id p).
Proof. intro s. unfold next_type_id. destruct (u_add _ _ _ _); [|exact Logic.I]. now apply sprouts_eq. Qed.
Lemma sp_add_type ti : blank ti -> sprouting (add_type ti).
Proof. intros E s. exists [ti]. split; [reflexivity|]. constructor; [exact E|constructor]. Qed.
Lemma sp_array_of p t : sprouting (array_of p t).
Proof.
  unfold array_of. spr. destruct a0; [spr|]. apply sp_bind; [apply sp_next_type_id|intro id].
  spr. apply sp_add_type. repeat split.
Qed.
Lemma sp_type_for_element p md : forall e, sprouting (type_for_element p md e).
Proof. induction e; cbn [type_for_element]; spr; auto using sp_array_of. Qed.
Lemma sp_read_locals p md : forall n r, sprouting (read_locals p md n r).
Proof.
  induction n as [|n IH]; intro r; cbn [read_locals]; [spr|]. spr. destruct a as [e r'].
  apply sp_bind; [apply sp_type_for_element|intro t]. apply sp_bind; [apply IH|intro ts]. spr.
Qed.
Lemma sp_load_locals p md tok : sprouting (load_locals p md tok).
Proof.
  unfold load_locals. destruct (_ =? _); [spr|]. spr. destruct a1 as [b r]. destruct (negb _); [spr|].
  spr. destruct a1 as [c r']. apply sp_read_locals.
Qed.
Lemma pure_catch_type p md tok : pure (catch_type p md tok).
Proof.
  unfold catch_type. apply pure_bind.
  - destruct (_ =? _); [pur|]. destruct (_ =? _); pur.
  - intros [nh nsh]. apply pure_bind; [apply pure_ok_or|intro n]. apply pure_bind; [apply pure_ok_or|intro ns].
    apply pure_bind; [apply pure_get_type|intro o]. apply pure_ok_or.
Qed.
Lemma pure_new_clause p md k a b c d e : pure (new_clause p md k a b c d e).
Proof.
  unfold new_clause. apply pure_bind; [|intro; apply pure_ret]. destruct k; try apply pure_ret.
  apply pure_bind; [apply pure_catch_type|intro; apply pure_ret].
Qed.
Lemma pure_read_clauses p md w1 w2 : forall n r, pure (read_clauses p md w1 w2 n r).
Proof.
  induction n as [|n IH]; intro r; cbn [read_clauses]; [apply pure_ret|].
  repeat (first [apply pure_bind; [first [apply pure_with_reader|apply pure_ok_or|apply pure_new_clause|apply IH]|];
                 first [intros [? ?]|intro] | apply pure_ret]).
Qed.
Lemma pure_read_section p md r : pure (read_section p md r).
Proof.
  unfold read_section. apply pure_bind; [apply pure_with_reader|intros [? ?]].
  apply pure_bind; [apply pure_with_reader|intros [? ?]]. destruct (negb _); [apply pure_fail|].
  apply pure_bind; [apply pure_with_reader|intros [? ?]]. destruct (has _ _);
  (apply pure_bind; [apply pure_with_reader|intros [? ?]]; apply pure_read_clauses).
Qed.
Lemma sp_load_body p md rva : sprouting (load_body p md rva).
Proof.
  unfold load_body. spr. destruct a1 as [b r].
  assert (H2 : sprouting (' (code, _) <- with_reader r (read_code p (N.shiftr (N.land b 0xfc) 2)) ;;
      ret (mkBody code 8 [] (has b 0x10) []))). { spr. destruct a1. spr. }
  assert (H3 : sprouting (' (_, r) <- with_reader r (advance p 1) ;;
      ' (max_stack, r) <- with_reader r (rd p 2 bad_body) ;;
      ' (code_size, r) <- with_reader r (rd p 4 bad_body) ;;
      ' (locals_token, r) <- with_reader r (rd p 4 bad_body) ;;
      locals <- load_locals p md locals_token ;;
      ' (code, r) <- with_reader r (read_code p code_size) ;;
      clauses <- (if has b 8 then read_section p md r else ret []) ;;
      ret (mkBody code max_stack locals (has b 0x10) clauses))).
  { do 4 (apply sp_bind; [spr|intros [? ?]]). apply sp_bind; [apply sp_load_locals|intro ls].
    apply sp_bind; [spr|intros [? ?]]. apply sp_bind; [|intro; spr].
    destruct (has b 8); [apply sp_pure, pure_read_section|spr]. }
  destruct (N.land b 3) as [|[[?|?|]|[?|?|]|]]; first [exact H2|exact H3|spr].
Qed.
Lemma sp_signature_at {A} p md h (m : M reader A) : sprouting (signature_at p md h m).
Proof. unfold signature_at. spr. Qed.
Lemma sp_load_field p md t i o : sprouting (load_field p md t i o).
Proof. unfold load_field. spr; [apply sp_signature_at|apply sp_type_for_element]. Qed.
Lemma sp_load_params p md : forall es h, sprouting (load_params p md h es).
Proof.
  induction es as [|e es IH]; intro h; cbn [load_params]; [spr|]. spr; [apply sp_type_for_element|apply IH].
Qed.
Lemma sp_load_method p md t i : sprouting (load_method p md t i).
Proof.
  unfold load_method. do 2 (apply sp_bind; [spr|intro]). apply sp_bind; [apply sp_signature_at|intro sig].
  apply sp_bind.
  - destruct (mi_internal_call _).
    + apply sp_bind; [|intro ns].
      { unfold param_type_names. apply sp_map_m. intro e. spr. apply sp_type_for_element. }
      spr. apply sp_type_for_element.
    + destruct (ma_pinvoke_impl _); [spr|]. destruct (negb _); [|spr]. apply sp_bind; [apply sp_load_body|intro]. spr.
  - intro im. apply sp_bind; [apply sp_type_for_element|intro rt]. apply sp_bind; [apply sp_load_params|intro ps]. spr.
Qed.
Lemma sp_load_type p md a i : sprouting (load_type p md a i).
Proof. unfold load_type. spr; [apply sp_next_type_id|]. apply sp_add_type. repeat split. Qed.
Lemma sp_load_types p md a : forall n i, sprouting (load_types p md a n i).
Proof. induction n as [|n IH]; intro i; cbn [load_types]; [spr|]. spr; [apply sp_load_type|apply IH]. Qed.

(** ** Loading the types of an assembly *)

Lemma bare_le n m ts : (n <= m)%nat -> bare n ts -> bare m ts.
Proof. intros L H i ti Hi. apply H. lia. Qed.
Lemma alike_update n ts t f : (n <= t)%nat -> alike n ts (update ts t f).
Proof. intros L i Hi. rewrite nth_update. destruct (Nat.eqb_spec t i); [lia|reflexivity]. Qed.
Lemma alike_update_core n ts t f : (forall ti, core (f ti) = core ti) -> alike n ts (update ts t f).
Proof.
  intros C i Hi. rewrite nth_update. destruct (Nat.eqb t i); [|reflexivity].
  destruct (nth_error ts i); cbn [option_map]; [now rewrite C|reflexivity].
Qed.
Lemma nth_update_inv ts t (f : type_info -> type_info) i x : nth_error (update ts t f) i = Some x ->
  exists y, nth_error ts i = Some y /\ x = (if Nat.eqb t i then f y else y).
Proof.
  rewrite nth_update. destruct (Nat.eqb t i).
  - destruct (nth_error ts i) as [y|]; [|discriminate]. intro E. injection E as <-. eauto.
  - intro E. eauto.
Qed.

Definition lay (p : profile) (n : nat) (s : vm) : Prop := laid p (c_types s) /\ bare n (c_types s).
Lemma lay_le p n m s : (n <= m)%nat -> lay p n s -> lay p m s.
Proof. intros L [A B]. split; [exact A|]. eapply bare_le; eauto. Qed.
Lemma lay_sprouts p n s s' : sprouts s s' -> lay p n s -> lay p n s'.
Proof. intros S [A B]. split; [eapply sprouts_laid|eapply sprouts_bare]; eauto. Qed.
Lemma lay_types p n s s' : c_types s' = c_types s -> lay p n s -> lay p n s'.
Proof. unfold lay. now intros ->. Qed.
Lemma lay_core p n t f s : (forall ti, core (f ti) = core ti) -> lay p n s -> lay p n (set_types s (update (c_types s) t f)).
Proof.
  intros C [A B]. split; cbn [c_types set_types].
  - intros i x E. apply nth_update_inv in E as (y & E & ->).
    eapply good_alike; [now apply alike_update_core| |exact (A _ _ E)]. destruct (Nat.eqb t i); auto.
  - intros i x L E. apply nth_update_inv in E as (y & E & ->). specialize (B _ _ L E).
    destruct (Nat.eqb t i); [|exact B]. specialize (C y). injection C as _ _ C. congruence.
Qed.
Lemma lay_bare p n t f s : (n <= t)%nat -> (forall ti, ti_fields (f ti) = ti_fields ti) -> lay p n s ->
  lay p n (set_types s (update (c_types s) t f)).
Proof.
  intros L C [A B].
  assert (B' : bare n (update (c_types s) t f)).
  { intros i x Li E. apply nth_update_inv in E as (y & E & ->). specialize (B _ _ Li E).
    destruct (Nat.eqb t i); [|exact B]. now rewrite C. }
  split; [|exact B']. cbn [c_types set_types]. intros i x E. destruct (Nat.lt_ge_cases i t) as [Li|Li].
  - pose proof E as E2. apply nth_update_inv in E2 as (y & E2 & X). destruct (Nat.eqb_spec t i); [lia|]. subst x.
    eapply good_alike; [apply alike_update; lia|reflexivity|exact (A _ _ E2)].
  - left. apply (B' i); [lia|exact E].
Qed.

(** In both cases the state afterwards has the property. *)
Definition after {A} (P : vm -> Prop) (r : res vm A) : Prop :=
  match r with Ok _ s' | Err _ s' => P s' | _ => True end.
Lemma after_bind {A B} (P Q : vm -> Prop) (m : M vm A) (k : A -> M vm B) s :
  after P (m s) -> (forall s', P s' -> Q s') -> (forall a s', m s = Ok a s' -> P s' -> after Q (k a s')) -> after Q (bind m k s).
Proof. unfold after, bind. intros H PQ K. destruct (m s) as [a s1|e s1|w|w|] eqn:E; auto. exact (K a s1 eq_refl H). Qed.
Lemma after_pure {A B} (Q : vm -> Prop) (m : M vm A) (k : A -> M vm B) s :
  pure m -> Q s -> (forall a, m s = Ok a s -> after Q (k a s)) -> after Q (bind m k s).
Proof. unfold after, bind. intros H Hs K. specialize (H s). destruct (m s) as [a s1|e s1|w|w|]; subst; auto. exact (K a eq_refl). Qed.
Lemma after_sprouting {A} p n (m : M vm A) s : sprouting m -> lay p n s -> after (lay p n) (m s).
Proof. intros H L. specialize (H s). unfold after. destruct (m s); auto; eapply lay_sprouts; eauto. Qed.
Lemma after_weaken {A} (P Q : vm -> Prop) (r : res vm A) : (forall s, P s -> Q s) -> after P r -> after Q r.
Proof. intro H. unfold after. destruct r; auto. Qed.

Section Loading.
  Variables (p : profile) (md : metadata) (n0 : nat) (a0 : aref).

  Lemma resolve_base_lay n t i s : (n <= t)%nat -> lay p n s -> after (lay p n) (resolve_base p md t i s).
  Proof.
    intros L H. unfold resolve_base. apply after_pure; [apply pure_row_at|exact H|]. intros d _.
    assert (K : after (lay p n) (bind (type_def_or_ref_name p md (td_extends d)) (fun o =>
       bind (match o with Some n => get_type n | None => ret None end) (fun b =>
       bind (ok_or b "Unable to find base type") (fun b => modify_type t (with_base (Some b))))) s)).
    { apply after_pure; [apply pure_type_def_or_ref_name|exact H|intros o _].
      apply after_pure; [destruct o; [apply pure_get_type|apply pure_ret]|exact H|intros b _].
      apply after_pure; [apply pure_ok_or|exact H|intros x _]. apply lay_bare; auto. }
    destruct (ref_table (td_extends d)); destruct (ref_index (td_extends d)); try exact K. exact H.
  Qed.
  Lemma resolve_kind_lay n t i s : lay p n s -> after (lay p n) (resolve_kind p md t i s).
  Proof.
    intros H. unfold resolve_kind. apply after_pure; [apply pure_row_at|exact H|]. intros d _.
    apply after_pure; [apply pure_the_type|exact H|]. intros ti _.
    apply after_pure; [|exact H|]; [|intros k _; now apply lay_core].
    destruct (ta_semantics _); [|apply pure_ret]. destruct (ti_base ti); [|apply pure_ret].
    apply pure_bind; [apply pure_the_type|intro]. apply pure_ret.
  Qed.

  (** While the fields of [t] are being loaded; the next one goes to [o]. *)
  Definition filling (t : tref) (o : N) (s : vm) : Prop :=
    (forall t' ti, (t' < t)%nat -> nth_error (c_types s) t' = Some ti -> good p (c_types s) t' ti) /\
    bare (S t) (c_types s) /\
    exists ti o0, nth_error (c_types s) t = Some ti /\ begins (c_types s) t (ti_base ti) o0 /\
      placed p (c_types s) t o0 (ti_fields ti) o.
  Lemma filling_lay t o s : filling t o s -> lay p (S t) s.
  Proof.
    intros (A & B & ti & o0 & E & Bg & P). split; [|exact B]. intros i x Ex.
    destruct (Nat.lt_trichotomy i t) as [L|[->|L]].
    - eauto.
    - assert (x = ti) as -> by congruence. right. eauto.
    - left. eapply B; eauto.
  Qed.
  Lemma filling_sprouts t o s s' : filling t o s -> sprouts s s' -> filling t o s'.
  Proof.
    intros (A & B & ti & o0 & E & Bg & P) S. pose proof (nth_lt _ _ _ E) as L.
    assert (Al : alike (Datatypes.S t) (c_types s) (c_types s')) by (apply sprouts_alike; [exact S|lia]).
    assert (NE : forall i, (i <= t)%nat -> nth_error (c_types s') i = nth_error (c_types s) i).
    { intros i Hi. destruct S as (l & -> & _). now rewrite nth_error_app1 by lia. }
    split; [|split; [eapply sprouts_bare; eauto|]].
    - intros i x Li Ex. rewrite NE in Ex by lia. eapply good_alike; [|reflexivity|eapply A; eauto].
      eapply alike_le; [|exact Al]. lia.
    - exists ti, o0. rewrite NE by lia. split; [exact E|]. split.
      + eapply begins_alike; [|exact Bg]. eapply alike_le; [|exact Al]. lia.
      + eapply placed_alike; [|exact P]. eapply alike_le; [|exact Al]. lia.
  Qed.
  Lemma filling_field t o fi s o2 : filling t o s -> computed p o (f_offset fi) ->
    (forall k, takes (update (c_types s) t (with_field fi)) (f_type fi) k -> (f_type fi < t)%nat -> o2 = o + k) ->
    filling t o2 (set_types s (update (c_types s) t (with_field fi))).
  Proof.
    intros (A & B & ti & o0 & E & Bg & P) C K. set (ts := update (c_types s) t (with_field fi)).
    assert (Al : alike t (c_types s) ts) by (apply alike_update; lia).
    split; [|split]; cbn [c_types set_types]; fold ts.
    - intros i x Li Ex. apply nth_update_inv in Ex as (y & Ey & ->). destruct (Nat.eqb_spec t i); [lia|].
      eapply good_alike; [|reflexivity|eapply A; eauto]. eapply alike_le; [|exact Al]. lia.
    - intros i x Li Ex. apply nth_update_inv in Ex as (y & Ey & ->). destruct (Nat.eqb_spec t i); [lia|]. eauto.
    - exists (with_field fi ti), o0. split; [|split].
      + unfold ts. now rewrite nth_update, Nat.eqb_refl, E.
      + cbn [ti_base with_field]. eapply begins_alike; eauto.
      + cbn [ti_fields with_field]. apply placed_snoc with o; [eapply placed_alike; eauto|exact C|exact K].
  Qed.

  Lemma type_size_no_error : forall f t s e s', type_size f p t s <> Err e s'.
  Proof.
    set (ne := fun A (m : M vm A) => forall s e s', m s <> Err e s').
    assert (nb : forall A B (m : M vm A) (k : A -> M vm B), ne A m -> (forall a, ne B (k a)) -> ne B (bind m k)).
    { intros A B m k Hm Hk s e s'. unfold bind. destruct (m s) eqn:E; try discriminate; [apply Hk|]. intros _. now apply Hm in E. }
    assert (nr : forall A (a : A), ne A (ret a)) by (intros A a s e s'; discriminate).
    assert (nt : forall t, ne _ (the_type t)) by (intros t s e s'; unfold the_type; destruct (nth_error _ _); discriminate).
    assert (nn : forall x, ne _ (named x)).
    { intros x s e s'. unfold named, bind, get_type, unwrap. destruct (map_get _ _ _); discriminate. }
    assert (nq : forall t u, ne _ (type_eq t u)) by (intros; unfold type_eq; apply nb; [auto|]; intro; apply nb; auto).
    assert (nc : forall l u, ne _ (contains_type l u)).
    { induction l; intro u; cbn [contains_type]; auto. apply nb; auto. intros [|]; auto. }
    assert (ni : forall f t u, ne _ (instance_of f t u)).
    { induction f; intros t u; cbn [instance_of]; [intros s e s'; discriminate|]. apply nb; auto. intros [|]; auto.
      apply nb; auto. intro ti. destruct (ti_base ti); auto. }
    assert (ns : forall l t, ne _ (try_sizes l t)).
    { induction l as [|[x k] l IH]; intro t; cbn [try_sizes]; auto. apply nb; auto. intro. apply nb; auto. intros [|]; auto. }
    assert (no : forall A (o : option A), ne _ (ovf o)) by (intros A [|] s e s'; discriminate).
    enough (G : forall f t, ne _ (type_size f p t)) by exact G.
    induction f as [|f IH]; intro t; cbn [type_size]; [intros s e s'; discriminate|].
    apply nb; auto. intros [k|]; auto. apply nb; auto. intro ti. apply nb.
    - generalize 0 at 1. induction (filter _ (ti_fields ti)) as [|x l IHl]; intro a; cbn [fold_m]; auto.
      apply nb; [|auto]. apply nb; [unfold is_reference_type; apply nb; auto; intro; apply nb; auto|]. intro r.
      apply nb; [destruct r; auto|auto].
    - intro z. destruct (ti_base ti); auto.
  Qed.

  Lemma load_field_offset t i o s f s' : load_field p md t i o s = Ok f s' -> f_offset f = o.
  Proof.
    unfold load_field. intro E. do 4 (apply bind_inv_ok in E as (? & ? & _ & E)). injection E as <- _. reflexivity.
  Qed.

  Lemma load_fields_lay fuel t : forall n i off o s, consistent p s -> loading n0 a0 s -> mine n0 a0 s t ->
    computed p o off -> filling t o s -> after (lay p (S t)) (load_fields fuel p md t n i off s).
  Proof.
    induction n as [|n IH]; intros i off o s W L Mt C F; cbn [load_fields]; [exact (filling_lay _ _ _ F)|].
    pose proof (sp_load_field p md t i off s) as SP.
    pose proof (pres_in p n0 a0 s _ _ L (load_field_pres p md t i off s (mine_ref _ _ _ _ Mt))) as P1.
    apply after_bind with (P := filling t o).
    { unfold after. destruct (load_field p md t i off s); auto; eapply filling_sprouts; eauto. }
    { apply filling_lay. }
    intros fi s1 E1 F1.
    destruct (pres_run_ok _ _ _ _ _ _ _ P1 W E1) as (W1 & R1 & V1).
    pose proof (loading_within _ _ _ _ L R1) as L1. pose proof (mine_within _ _ _ _ _ Mt R1) as M1.
    pose proof (load_field_offset _ _ _ _ _ _ E1) as Ho.
    unfold bind at 1. unfold modify_type at 1. set (s2 := set_types s1 (update (c_types s1) t (with_field fi))).
    assert (P2 : pres p (within n0 a0) s1 (modify_type t (with_field fi)) (fun _ _ => True)).
    { apply modify_type_pres; [apply Mt|intro; repeat split|].
      intros ti (A & B & D & E & G & H & J). repeat split; auto.
      - apply Forall_app. split; [exact D|]. constructor; [exact V1|constructor].
      - constructor; [exact V1|exact H]. }
    destruct (pres_run_ok _ _ _ _ _ _ _ P2 W1 eq_refl) as (W2 & R2 & _). fold s2 in W2, R2.
    pose proof (loading_within _ _ _ _ L1 R2) as L2. pose proof (mine_within _ _ _ _ _ M1 R2) as M2.
    destruct M2 as [M2a (ti & Et & Ea)].
    unfold bind at 1. unfold the_type. rewrite Et, Ea. unfold bind at 1. unfold modify_assembly at 1.
    match goal with |- context [update (c_arena s2) a0 (option_map ?g)] => set (h := g) end.
    set (s3 := set_arena s2 _).
    assert (P3 : pres p (within n0 a0) s2 (modify_assembly a0 h) (fun _ _ => True)).
    { apply modify_assembly_pres. intros ai (A & B & D & E & G & H). repeat split; auto. apply Forall_app. split; [exact G|].
      constructor; [|constructor]. eapply v_field_mono; [|exact V1]. apply (wi_count _ _ _ _ R2). }
    destruct (pres_run_ok _ _ _ _ _ _ _ P3 W2 eq_refl) as (W3 & R3 & _).
    change (consistent p s3) in W3. change (within n0 a0 s2 s3) in R3.
    pose proof (loading_within _ _ _ _ L2 R3) as L3.
    pose proof (mine_within _ _ _ _ _ (conj M2a (ex_intro _ ti (conj Et Ea))) R3) as M3.
    unfold bind at 1. destruct (type_size fuel p (f_type fi) s3) as [sz s4|e s4|w|w|] eqn:E4; try exact Logic.I.
    2:{ now apply type_size_no_error in E4. }
    destruct (type_size_run _ _ W3 _ _ _ _ E4) as (-> & m & Sz & Cm).
    unfold bind at 1. destruct (u_add p 64 off sz) as [off'|] eqn:U; cbn [ovf]; [|exact Logic.I].
    unfold ret at 1. apply IH with (o := o + m); auto; [eapply computed_add; eauto|].
    assert (F2 : filling t (o + m) s2).
    { apply filling_field with o; [exact F1|now rewrite Ho|]. intros k T _. f_equal.
      eapply size_unique; [exact Sz|]. apply takes_size. exact T. }
    exact F2.
  Qed.

  Lemma pure_run_length i lf total : pure (run_length p md i lf total).
  Proof.
    unfold run_length. apply pure_bind; [apply pure_row_at|intro d]. destruct (_ =? _).
    - pur.
    - apply pure_bind; [apply pure_row_at|intro]. pur.
  Qed.
  Lemma pure_reserve n : pure (reserve n).
  Proof. unfold reserve. destruct (_ <? _); pur. Qed.

  Lemma resolve_fields_lay fuel t i s : consistent p s -> loading n0 a0 s -> mine n0 a0 s t -> lay p t s ->
    after (lay p (S t)) (resolve_fields fuel p md t i s).
  Proof.
    intros W L Mt H. assert (H' : lay p (S t) s) by (eapply lay_le; [|exact H]; lia). unfold resolve_fields.
    apply after_pure; [apply pure_row_at|exact H'|intros d _].
    apply after_pure; [apply pure_run_length|exact H'|intros c _].
    apply after_pure; [apply pure_reserve|exact H'|intros [] _].
    apply after_pure; [apply pure_ovf|exact H'|intros stop _].
    apply after_pure; [apply pure_the_type|exact H'|intros ti Et].
    apply after_pure; [destruct (ti_base ti); [apply pure_type_size|apply pure_ret]|exact H'|intros off Eo].
    apply after_pure; [apply pure_the_assembly|exact H'|intros ai _].
    unfold the_type in Et. destruct (nth_error (c_types s) t) as [x|] eqn:Ex; [|discriminate]. injection Et as <-.
    assert (O : exists o, computed p o off /\ begins (c_types s) t (ti_base x) o).
    { destruct (ti_base x) as [b|].
      - destruct (type_size_run _ _ W _ _ _ _ Eo) as (_ & m & Sz & Cm). exists m. split; [exact Cm|].
        intros l k _ La. eapply size_unique; [exact Sz|]. eapply (proj1 (layout_sizes _)); eauto.
      - injection Eo as <-. exists 0. split; [now apply computed_small|reflexivity]. }
    destruct O as (o & Co & Bo). apply load_fields_lay with (o := o); auto.
    destruct H as [A B]. split; [|split].
    - intros t' ti' _ E. exact (A _ _ E).
    - eapply bare_le; [|exact B]. lia.
    - exists x, o. split; [exact Ex|]. split; [exact Bo|]. rewrite (B t x); [constructor|lia|exact Ex].
  Qed.
  Lemma resolve_methods_lay n t i s : lay p n s -> after (lay p n) (resolve_methods p md t i s).
  Proof.
    intros H. unfold resolve_methods.
    apply after_pure; [apply pure_row_at|exact H|intros d _].
    apply after_pure; [apply pure_run_length|exact H|intros c _].
    apply after_pure; [apply pure_reserve|exact H|intros [] _].
    apply after_pure; [apply pure_ovf|exact H|intros stop _].
    generalize (N.to_nat (stop - td_method_list d)). intro cnt. revert s H. generalize (td_method_list d).
    induction cnt as [|k IH]; intros j s H; cbn [range_m]; [exact H|].
    apply after_bind with (P := lay p n); auto.
    apply after_bind with (P := lay p n); auto; [apply after_sprouting; [apply sp_load_method|exact H]|].
    intros m s1 _ H1. now apply lay_core.
  Qed.
  Lemma resolve_lay fuel t i s : consistent p s -> loading n0 a0 s -> mine n0 a0 s t -> lay p t s ->
    after (lay p (S t)) (resolve fuel p md t i s).
  Proof.
    intros W L Mt H. unfold resolve.
    apply after_bind with (P := lay p t); [apply resolve_base_lay; auto|intro; apply lay_le; lia|].
    intros [] s1 E1 H1. destruct (pres_run_ok _ _ _ _ _ _ _ (resolve_base_pres p md n0 a0 t i s L Mt) W E1) as (W1 & R1 & _).
    pose proof (loading_within _ _ _ _ L R1) as L1. pose proof (mine_within _ _ _ _ _ Mt R1) as M1.
    apply after_bind with (P := lay p t); [apply resolve_kind_lay; auto|intro; apply lay_le; lia|].
    intros [] s2 E2 H2. destruct (pres_run_ok _ _ _ _ _ _ _ (resolve_kind_pres p md n0 a0 t i s1 L1 M1) W1 E2) as (W2 & R2 & _).
    pose proof (loading_within _ _ _ _ L1 R2) as L2. pose proof (mine_within _ _ _ _ _ M1 R2) as M2.
    apply after_bind with (P := lay p (S t)); [apply resolve_fields_lay; auto|auto|].
    intros [] s3 E3 H3. now apply resolve_methods_lay.
  Qed.
  Lemma resolve_types_lay fuel : forall n m i s, consistent p s -> loading n0 a0 s -> Forall (mine n0 a0 s) (seq m n) -> lay p m s ->
    after (lay p (m + n)) (resolve_types fuel p md (seq m n) i s).
  Proof.
    induction n as [|n IH]; intros m i s W L F H; cbn [seq resolve_types].
    - cbn. eapply lay_le; [|exact H]. lia.
    - cbn [seq] in F. inversion F as [|? ? Mt F']; subst.
      apply after_bind with (P := lay p (S m)); [apply resolve_lay; auto|intro; apply lay_le; lia|].
      intros [] s1 E1 H1. destruct (pres_run_ok _ _ _ _ _ _ _ (resolve_pres p md n0 a0 fuel m i s L Mt) W E1) as (W1 & R1 & _).
      replace (m + S n)%nat with (S m + n)%nat by lia. apply IH; auto.
      + eapply loading_within; eauto.
      + eapply Forall_impl; [|exact F']. intros u Hu. exact (mine_within _ _ _ _ _ Hu R1).
  Qed.

  Lemma load_type_run i s t s' : load_type p md a0 i s = Ok t s' ->
    t = List.length (c_types s) /\ exists ti, c_types s' = c_types s ++ [ti].
  Proof.
    unfold load_type. intro E. apply bind_inv_ok in E as (d & s1 & E1 & E).
    pose proof (pure_row_at p (tb_type_def (m_tables md)) (handle_of_position TTypeDef i) s) as P. rewrite E1 in P. subst s1.
    apply bind_inv_ok in E as (x & s1 & E2 & E). pose proof (pure_unwrap (S := vm) (string_at md (td_name d)) s) as P. rewrite E2 in P. subst s1.
    apply bind_inv_ok in E as (y & s1 & E3 & E). pose proof (pure_unwrap (S := vm) (string_at md (td_namespace d)) s) as P. rewrite E3 in P. subst s1.
    apply bind_inv_ok in E as (id & s1 & E4 & E). unfold next_type_id in E4. destruct (u_add _ _ _ _); [|discriminate].
    injection E4 as _ <-. unfold add_type in E. cbn in E. injection E as <- <-. cbn. eauto.
  Qed.
  Lemma load_types_run : forall n i s ts s', load_types p md a0 n i s = Ok ts s' -> ts = seq (List.length (c_types s)) n.
  Proof.
    induction n as [|n IH]; intros i s ts s' E; cbn [load_types] in E.
    - injection E as <- _. reflexivity.
    - apply bind_inv_ok in E as (t & s1 & E1 & E). apply load_type_run in E1 as (-> & ti & T).
      apply bind_inv_ok in E as (l & s2 & E2 & E). injection E as <- <-. apply IH in E2. rewrite T, app_length in E2.
      cbn [seq]. rewrite E2. cbn [List.length]. now rewrite Nat.add_1_r.
  Qed.

  Lemma load_interface_impl_lay n ii s : lay p n s -> after (lay p n) (load_interface_impl p md ii s).
  Proof.
    intro H. unfold load_interface_impl.
    assert (FN : forall x y, pure (full_name_at md x y)) by (intros; unfold full_name_at; pur).
    apply after_pure; [apply pure_row_at|exact H|intros d _].
    apply after_pure; [apply FN|exact H|intros fn _].
    apply after_pure; [apply pure_get_type|exact H|intros o _].
    apply after_pure; [apply pure_unwrap|exact H|intros t _].
    apply after_pure; [|exact H|intros ifn _].
    { destruct (ref_table _); try apply pure_panic; (apply pure_bind; [apply pure_row_at|intro; apply FN]). }
    apply after_pure; [apply pure_get_type|exact H|intros o2 _].
    apply after_pure; [apply pure_unwrap|exact H|intros i _].
    now apply lay_core.
  Qed.

  Lemma load_contents_lay fuel s : consistent p s -> loading n0 a0 s -> laid p (c_types s) ->
    after (fun s' => laid p (c_types s')) (load_contents fuel p md a0 s).
  Proof.
    intros W L H. unfold load_contents. set (m := List.length (c_types s)).
    assert (H0 : lay p m s).
    { split; [exact H|]. intros i ti Li E. apply nth_lt in E. subst m. lia. }
    apply after_bind with (P := lay p m); [apply after_sprouting; [apply sp_load_types|exact H0]|intros s' X; apply X|].
    intros ts s1 E1 H1. pose proof (load_types_run _ _ _ _ _ E1) as ->. fold m.
    destruct (pres_run_ok _ _ _ _ _ _ _ (load_types_pres p md n0 a0 _ _ s L) W E1) as (W1 & R1 & M1 & _). fold m in M1.
    pose proof (loading_within _ _ _ _ L R1) as L1. set (n := List.length (tb_type_def (m_tables md))) in *.
    apply after_bind with (P := lay p (m + n)); [now apply resolve_types_lay|intros s' X; apply X|].
    intros [] s2 _ H2.
    apply after_bind with (P := lay p (m + n)); [|intros s' X; apply X|].
    { revert s2 H2. induction (tb_interface_impl (m_tables md)) as [|ii l IH]; intros s2 H2; cbn [iter_m]; [exact H2|].
      apply after_bind with (P := lay p (m + n)); [now apply load_interface_impl_lay|auto|]. intros [] s3 _ H3. now apply IH. }
    intros [] s3 _ [H3 _].
    set (P := fun s' => laid p (c_types s')) in *. change (P s3) in H3.
    assert (MA : forall f s, P s -> after P (modify_assembly a0 f s)) by (intros; assumption).
    apply after_bind with (P := P); auto. intros [] s4 _ H4.
    apply after_pure; [|exact H4|intros defs _].
    { generalize (seq m n). induction l as [|x l IH]; cbn [map_m]; [apply pure_ret|].
      apply pure_bind; [apply pure_bind; [apply pure_the_type|intro; apply pure_ret]|intro].
      apply pure_bind; [exact IH|intro; apply pure_ret]. }
    apply after_bind with (P := P); auto. intros [] s5 _ H5.
    apply after_bind with (P := P); auto.
    { destruct (m_entry_point md) as [ep|]; [|exact H5].
      apply after_pure; [apply pure_resolve_method|exact H5|intros o _].
      apply after_pure; [apply pure_ok_or|exact H5|intros x _]. exact H5. }
  Qed.
End Loading.

Lemma load_data_laid p fs : forall fuel data s, consistent p s -> laid p (c_types s) ->
  after (fun s' => laid p (c_types s')) (load_data fuel p fs data s).
Proof.
  set (P := fun s' => laid p (c_types s')).
  induction fuel as [|fuel IH]; intros data s W H; cbn [load_data]; [exact Logic.I|]. change (P s) in H.
  apply after_pure; [apply pure_lift|exact H|intros md _].
  apply after_pure; [apply pure_row_at|exact H|intros row _].
  apply after_pure; [apply pure_unwrap|exact H|intros n _].
  set (one := fun r => _).
  assert (One : forall r x, consistent p x -> P x -> after (fun y => consistent p y /\ P y) (one r x)).
  { intros r x Wx Hx. unfold one. assert (HH : consistent p x /\ P x) by auto.
    apply after_pure; [apply pure_ok_or|exact HH|intros rn _]. unfold bind at 1. unfold get_state.
    destruct (loaded _ _ _); [exact HH|]. unfold bind at 1.
    destruct (resolve_assembly_name fs (c_paths x) rn) as [path|]; cbn [ok_or]; [|exact HH]. unfold ret at 1.
    destruct (fs _ _) as [| |d]; try exact HH.
    apply after_bind with (P := fun y => consistent p y /\ P y); auto.
    specialize (IH d x Wx Hx). pose proof (load_data_pres p fs fuel d x Wx) as Q. unfold after in *.
    destruct (load_data fuel p fs d x); auto; split; tauto. }
  apply after_bind with (P := fun y => consistent p y /\ P y); [|tauto|].
  { revert s W H. induction (tb_assembly_ref (m_tables md)) as [|r l IHl]; intros s W H; cbn [iter_m]; [split; assumption|].
    apply after_bind with (P := fun y => consistent p y /\ P y); auto. intros [] s1 _ [W1 H1]. now apply IHl. }
  intros [] s1 _ [W1 H1].
  assert (PM : forall rows, pure (load_method_refs p md rows)).
  { assert (FN : forall x y, pure (full_name_at md x y)) by (intros; unfold full_name_at; pur).
    induction rows as [|mr rows IHr]; cbn [load_method_refs]; [apply pure_ret|]. destruct (ref_table _); auto.
    apply pure_bind; [apply pure_row_at|intro]. apply pure_bind; [apply FN|intro]. apply pure_bind; [apply pure_get_type|intro].
    apply pure_bind; [apply pure_ok_or|intro]. apply pure_bind; [apply pure_ok_or|intro].
    apply pure_bind; [unfold get_method; apply pure_bind; [apply pure_the_type|intro; apply pure_ret]|intro].
    apply pure_bind; [apply pure_ok_or|intro]. apply pure_bind; [exact IHr|intro]. apply pure_ret. }
  assert (PT : pure (load_type_refs p md)).
  { assert (FN : forall x y, pure (full_name_at md x y)) by (intros; unfold full_name_at; pur).
    unfold load_type_refs. induction (tb_type_ref (m_tables md)) as [|tr l IHl]; cbn [map_m]; [apply pure_ret|].
    apply pure_bind; [apply pure_bind; [apply FN|intro]; apply pure_bind; [apply pure_get_type|intro; apply pure_ok_or]|intro].
    apply pure_bind; [exact IHl|intro; apply pure_ret]. }
  unfold bind at 1. pose proof (load_method_refs_pres p md (tb_member_ref (m_tables md)) s1 W1) as Q1. pose proof (PM (tb_member_ref (m_tables md)) s1) as Q1'.
  destruct (load_method_refs p md (tb_member_ref (m_tables md)) s1) as [ms s2|e s2|w|w|]; try exact Logic.I; [|now subst s2].
  subst s2. destruct Q1 as (_ & _ & _ & Vm).
  unfold bind at 1. pose proof (load_type_refs_pres p md s1 W1) as Q2. pose proof (PT s1) as Q2'.
  destruct (load_type_refs p md s1) as [ts s2|e s2|w|w|]; try exact Logic.I; [|now subst s2].
  subst s2. destruct Q2 as (_ & _ & _ & Vt).
  set (ai := mkAssembly _ _ _ _ _ _ _ _). unfold new_assembly, bind.
  set (a0 := List.length (c_arena s1)). set (s2 := set_arena s1 (c_arena s1 ++ [Some ai])).
  assert (W2 : consistent p s2).
  { destruct W1 as []. subst s2. split; cbn [c_types c_next_id c_type_map c_arena c_assemblies c_primitives set_arena]; auto.
    - rewrite length_snoc. eapply Forall_impl; [|exact types_ok]. intros t. apply v_type_mono; lia.
    - intros b bi Hb. destruct (Nat.lt_ge_cases b a0) as [Hlt|Hge].
      + rewrite nth_error_app1 in Hb by exact Hlt. eauto.
      + rewrite nth_error_app2 in Hb by exact Hge. destruct (b - List.length (c_arena s1))%nat as [|k]; cbn in Hb; [|destruct k; discriminate].
        injection Hb as <-. repeat split; auto; constructor.
    - eapply Forall_impl; [|exact loaded_ok]. intros b [bi Hb]. exists bi. cbn [c_arena set_arena].
      rewrite nth_error_app1; [exact Hb|]. exact (nth_lt _ _ _ Hb). }
  assert (L2 : loading (List.length (c_types s1)) a0 s2).
  { split; [subst s2; cbn; lia|]. subst s2 a0. cbn [c_arena set_arena]. rewrite length_snoc. lia. }
  pose proof (load_contents_lay p md (List.length (c_types s1)) a0 fuel s2 W2 L2 H1) as R. unfold after in *.
  unfold drop_on_error. destruct (load_contents fuel p md a0 s2); auto.
Qed.

(** ** Executions add array types only *)

Lemma vm_sprouts p s0 : invariant p (fun s => sprouts (x_vm s0) (x_vm s)) (fun _ _ _ _ => True).
Proof.
  assert (KS : forall A (m : M machine A), silent m -> keeps (fun s => sprouts (x_vm s0) (x_vm s)) m (fun _ _ => True)).
  { intros A m H s Hs. specialize (H s). destruct (m s); auto; [split; [|exact Logic.I]|]; now rewrite H. }
  split.
  - intros s l H. exact H.
  - intros. apply KS, silent_store.
  - intros. apply KS, silent_make_room.
  - intros t s Hs. unfold on_vm. pose proof (sp_array_of p t (x_vm s)) as Q.
    destruct (array_of p t (x_vm s)) as [u v|e v|w|w|]; auto; cbn; [split; [|exact Logic.I]|]; eapply sprouts_trans; eauto.
  - intros m r. cbn zeta. apply KS. apply silent_bind; [apply silent_stackalloc|intro c].
    apply silent_bind; [apply silent_pop_args|intros []]. apply silent_pure, pure_ret.
Qed.
Lemma step_sprouts f p fr s : match step f p fr s with Ok _ s' | Err _ s' => sprouts (x_vm s) (x_vm s') | _ => True end.
Proof.
  assert (KS : forall A (m : M machine A), silent m -> keeps (fun s' => sprouts (x_vm s) (x_vm s')) m (fun _ _ => True)).
  { intros A m H s1 Hs. specialize (H s1). destruct (m s1); auto; [split; [|exact Logic.I]|]; now rewrite H. }
  assert (WR : writable fr (fun s' => sprouts (x_vm s) (x_vm s'))) by (intros c i v _; apply KS, silent_cell_set).
  pose proof (keeps_step p fr _ _ (vm_sprouts p s) f fr WR (same_frame_refl fr) s (sprouts_refl (x_vm s))) as H.
  destruct (step f p fr s); auto. apply H.
Qed.
Theorem runs_sprouts p :
  (forall fr s t e, runs p fr s t e -> sprouts (x_vm s) (x_vm (final e))) /\
  (forall m c s t e, calls p m c s t e -> sprouts (x_vm s) (x_vm (final e))).
Proof.
  apply (traces_ind p (fun fr s t e _ => sprouts (x_vm s) (x_vm (final e)))
                      (fun m c s t e _ => sprouts (x_vm s) (x_vm (final e)))); cbn [final].
  - intros f fr s e s' E. pose proof (step_sprouts f p fr s) as Q. now rewrite E in Q.
  - intros f fr s v s' E. pose proof (step_sprouts f p fr s) as Q. now rewrite E in Q.
  - intros f fr s fr' s' t e E _ IH. pose proof (step_sprouts f p fr s) as Q. rewrite E in Q. eapply sprouts_trans; eauto.
  - intros f fr s m c r fr' s1 t1 v s2 t2 e E _ IH1 _ IH2. pose proof (step_sprouts f p fr s) as Q. rewrite E in Q.
    eapply sprouts_trans; [exact Q|]. eapply sprouts_trans; eauto.
  - intros f fr s m c r fr' s1 t1 e s2 E _ IH1. pose proof (step_sprouts f p fr s) as Q. rewrite E in Q. eapply sprouts_trans; eauto.
  - intros m b c s fr s1 t v s2 s3 _ En _ IH L. now rewrite (leaves_vm _ _ _ L), <- (enters_vm _ _ _ _ _ _ En).
  - intros m b c s fr s1 t v s2 s3 _ En _ IH L. now rewrite (leaves_vm _ _ _ L), <- (enters_vm _ _ _ _ _ _ En).
  - intros m c s o text r s' _ Hv _ E. pose proof (console_write_run c s) as H. rewrite E in H.
    destruct H as (_ & o' & units & text' & _ & _ & _ & _ & ->). now apply sprouts_eq.
Qed.
Lemma execute_sprouts p fuel m params s r s' : execute fuel p m params s = Ok r s' -> sprouts s s'.
Proof.
  intro E. apply execute_executes in E. destruct E as [(_ & -> & _)|(_ & t & e & H & _ & ->)].
  - apply sprouts_refl.
  - exact (proj2 (runs_sprouts p) _ _ _ _ _ H).
Qed.

(** ** Histories *)

Lemma after_ok {A} (P : vm -> Prop) (r : res vm A) a s : after P r -> r = Ok a s -> P s.
Proof. intros H ->. exact H. Qed.
Lemma after_err {A} (P : vm -> Prop) (r : res vm A) a s : after P r -> r = Err a s -> P s.
Proof. intros H ->. exact H. Qed.
Lemma load_path_laid p fs fuel path s : consistent p s -> laid p (c_types s) ->
  after (fun s' => laid p (c_types s')) (load_path fuel p fs path s).
Proof. intros W H. unfold load_path. destruct (fs _ _); try exact H. now apply load_data_laid. Qed.
Lemma load_assembly_laid p fs fuel n s : consistent p s -> laid p (c_types s) ->
  after (fun s' => laid p (c_types s')) (load_assembly fuel p fs n s).
Proof.
  intros W H. unfold load_assembly, bind, get_state. destruct (resolve_assembly_name _ _ _); cbn [ok_or]; [|exact H].
  unfold ret. now apply load_path_laid.
Qed.
Lemma event_laid p fs s s' : consistent p s -> event p fs s s' -> laid p (c_types s) -> laid p (c_types s').
Proof.
  intros W E H. destruct E as [fuel data a s s' E|fuel data a s s' E|fuel d f a s s' E|fuel d f a s s' E|fuel n a s s' E|fuel n a s s' E|t u s s' E|fuel m params r s s' E].
  - exact (after_ok _ _ _ _ (load_data_laid _ _ _ _ _ W H) E).
  - exact (after_err _ _ _ _ (load_data_laid _ _ _ _ _ W H) E).
  - exact (after_ok _ _ _ _ (load_path_laid _ _ _ _ _ W H) E).
  - exact (after_err _ _ _ _ (load_path_laid _ _ _ _ _ W H) E).
  - exact (after_ok _ _ _ _ (load_assembly_laid _ _ _ _ _ W H) E).
  - exact (after_err _ _ _ _ (load_assembly_laid _ _ _ _ _ W H) E).
  - pose proof (sp_array_of p t s) as Q. rewrite E in Q. eapply sprouts_laid; eauto.
  - apply execute_sprouts in E. eapply sprouts_laid; eauto.
Qed.
Lemma later_laid p fs s s' : later p fs s s' -> consistent p s -> laid p (c_types s) -> laid p (c_types s').
Proof.
  induction 1 as [|s s1 s2 L IH E]; intros W H; [exact H|]. destruct (later_ok _ _ _ _ L W) as [W1 _].
  eapply event_laid; eauto.
Qed.
Lemma new_runtime_laid p fs fuel paths rt con s : new_runtime fuel p fs paths rt con = Ok tt s -> laid p (c_types s).
Proof.
  unfold new_runtime. intro H. pose proof (empty_consistent p paths) as W0.
  assert (H0 : laid p (c_types (empty_vm paths))). { intros t ti E. destruct t; discriminate. }
  apply bind_inv_ok in H as (a1 & s1 & H1 & H).
  pose proof (after_ok _ _ _ _ (load_data_laid _ _ _ _ _ W0 H0) H1) as L1.
  destruct (pres_run_ok _ _ _ _ _ _ _ (load_data_pres p fs fuel rt _) W0 H1) as (W1 & _).
  apply bind_inv_ok in H as (a2 & s2 & H2 & H).
  pose proof (after_ok _ _ _ _ (load_data_laid _ _ _ _ _ W1 L1) H2) as L2.
  do 11 (let t := fresh "t" in let s' := fresh "s'" in let Ht := fresh "Ht" in
    apply bind_inv_ok in H as (t & s' & Ht & H);
    lazymatch type of Ht with named ?x ?s0 = _ => pose proof (pure_named x s0) as Q; rewrite Ht in Q; subst s'; clear Ht end).
  cbn in H. injection H as <-. exact L2.
Qed.
Lemma history_laid p fs paths s : history p fs paths s -> laid p (c_types s).
Proof.
  intros (fuel & rt & con & s0 & H & L). destruct (new_runtime_ok _ _ _ _ _ _ _ H) as (W & _).
  eapply later_laid; eauto. eapply new_runtime_laid; eauto.
Qed.

(** ** What the layout says about the offsets *)

Definition total (ks : list N) : N := fold_right N.add 0 ks.
Lemma total_app a b : total (a ++ b) = total a + total b.
Proof. unfold total. induction a as [|x a IH]; cbn; [reflexivity|]. rewrite IH. lia. Qed.

(** The fields [l] of sizes [ks] follow each other from [o] on. *)
Definition packed (p : profile) (o : N) (l : list field_info) (ks : list N) : Prop :=
  forall i f, nth_error l i = Some f -> computed p (o + total (firstn i ks)) (f_offset f).
Lemma packed_app p o l ks l' ks' : List.length l = List.length ks -> packed p o l ks -> packed p (o + total ks) l' ks' ->
  packed p o (l ++ l') (ks ++ ks').
Proof.
  intros L A B i f E. destruct (Nat.lt_ge_cases i (List.length l)) as [Li|Li].
  - rewrite nth_error_app1 in E by exact Li. rewrite firstn_app. replace (i - List.length ks)%nat with 0%nat by lia.
    cbn [firstn]. rewrite app_nil_r. auto.
  - rewrite nth_error_app2 in E by exact Li. rewrite firstn_app, firstn_all2 by lia. rewrite total_app, N.add_assoc.
    rewrite <- L. auto.
Qed.
Lemma placed_packed p ts t : forall o l o', placed p ts t o l o' -> forall n, values ts t l n ->
  exists ks, Forall2 (fun f k => takes ts (f_type f) k) l ks /\ total ks = n /\ packed p o l ks.
Proof.
  induction 1 as [o|o f l o1 o2 C K P IH]; intros n V.
  - inversion V; subst. exists []. split; [constructor|]. split; [reflexivity|]. intros [|i] g; discriminate.
  - inversion V as [|? ? ? k m St L SB T V']; subst. destruct (IH _ V') as (ks & F & S & Pk). exists (k :: ks).
    split; [now constructor|]. split; [cbn; now rewrite <- S|]. rewrite (K _ T L) in Pk. intros [|i] g E.
    + injection E as <-. cbn. now rewrite N.add_0_r.
    + cbn [nth_error] in E. cbn [firstn total fold_right]. fold (total (firstn i ks)). rewrite N.add_assoc. auto.
Qed.
Lemma layout_packed p ts : laid p ts -> forall t l n, layout ts t l n ->
  exists ks, Forall2 (fun f k => takes ts (f_type f) k) l ks /\ total ks = n /\ packed p 0 l ks.
Proof.
  intros G. apply (layout_mut ts (fun t l n => exists ks, Forall2 (fun f k => takes ts (f_type f) k) l ks /\ total ks = n /\ packed p 0 l ks)
    (fun _ _ _ => True) (fun _ _ => True)); auto.
  - intros t ti n E NW B V _. destruct (G _ _ E) as [Z|(o & o' & Bg & P)].
    + rewrite Z in *. inversion V; subst. exists []. split; [constructor|]. split; [reflexivity|]. intros [|i] g; discriminate.
    + rewrite B in Bg. cbn in Bg. subst o. exact (placed_packed _ _ _ _ _ _ P _ V).
  - intros t ti b l m n E NW B L La IH V _. destruct IH as (ks & F & S & Pk).
    assert (Own : exists ks', Forall2 (fun f k => takes ts (f_type f) k) (ti_fields ti) ks' /\ total ks' = n /\ packed p m (ti_fields ti) ks').
    { destruct (G _ _ E) as [Z|(o & o' & Bg & P)].
      - rewrite Z in *. inversion V; subst. exists []. split; [constructor|]. split; [reflexivity|]. intros [|i] g; discriminate.
      - rewrite B in Bg. cbn in Bg. rewrite (Bg _ _ L La) in P. exact (placed_packed _ _ _ _ _ _ P _ V). }
    destruct Own as (ks' & F' & S' & Pk'). exists (ks ++ ks'). split; [now apply Forall2_app|].
    split; [rewrite total_app; congruence|]. apply packed_app; auto.
    + clear - F. induction F; cbn; congruence.
    + now rewrite S.
Qed.
Lemma total_firstn_le ks : forall i, total (firstn i ks) <= total ks.
Proof.
  induction ks as [|k ks IH]; intros [|i]; cbn [firstn]; try lia.
  - cbn. lia.
  - specialize (IH i). unfold total in *. cbn [fold_right]. lia.
Qed.
Lemma total_firstn_step ks : forall i j k, (i < j)%nat -> nth_error ks i = Some k -> total (firstn i ks) + k <= total (firstn j ks).
Proof.
  induction ks as [|x ks IH]; intros [|i] [|j] k L E; try discriminate; try lia; cbn [firstn nth_error] in *.
  - injection E as ->. unfold total. cbn [fold_right]. lia.
  - specialize (IH i j k ltac:(lia) E). unfold total in *. cbn [fold_right]. lia.
Qed.
Lemma computed_exact p n m : computed p n m -> n < 2 ^ 64 -> m = n.
Proof. intros [E _] L. rewrite E. now apply N.mod_small. Qed.
Lemma layout_disjoint p ts : laid p ts -> forall t l n, layout ts t l n -> (p = Release -> n < 2 ^ 64) ->
  (forall i f k, nth_error l i = Some f -> takes ts (f_type f) k -> f_offset f + k <= n) /\
  (forall i j f g k, (i < j)%nat -> nth_error l i = Some f -> nth_error l j = Some g -> takes ts (f_type f) k ->
     f_offset f + k <= f_offset g).
Proof.
  intros G t l n La NWr. destruct (layout_packed _ _ G _ _ _ La) as (ks & F & S & Pk).
  assert (K : forall i f k, nth_error l i = Some f -> takes ts (f_type f) k -> nth_error ks i = Some k).
  { clear - F. induction F as [|x k l ks T F IH]; intros [|i] f k' E T'; try discriminate; cbn [nth_error] in *.
    - injection E as <-. f_equal. eapply takes_unique; eauto.
    - eauto. }
  assert (X : forall i f, nth_error l i = Some f -> f_offset f = total (firstn i ks)).
  { intros i f E. specialize (Pk _ _ E). rewrite N.add_0_l in Pk. destruct p.
    - now apply Pk.
    - apply computed_exact in Pk; [exact Pk|]. eapply N.le_lt_trans; [apply total_firstn_le|]. rewrite S. auto. }
  split.
  - intros i f k E T. rewrite (X _ _ E). rewrite <- S, <- (firstn_all ks). pose proof (K _ _ _ E T) as Ek.
    rewrite (firstn_all ks) at 1. apply total_firstn_step; [|exact Ek]. apply nth_lt in Ek. exact Ek.
  - intros i j f g k L E E' T. rewrite (X _ _ E), (X _ _ E'). apply total_firstn_step; eauto.
Qed.

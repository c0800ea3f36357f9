(** One instruction: it comes to an end, and execution goes on where the code says. *)
From Coq Require Import NArith ZArith Arith Lia String List Bool.
From Coq.Strings Require Import Byte.
From Verif Require LangFacts.
From Verif Require Import Base BaseFacts ParseSpec Tables ReaderFacts Metadata Blob BinaryReader Utf Runtime Value Opcodes Gc Interp SpecBytes SpecExec SpecFrames SpecStack SpecRuntime SpecTypes SpecHeap
  SpecSafety SpecSteps RuntimeInv InterpFacts InterpInv FrameFacts VmFacts StackFacts TypeFacts TraceFacts PropsDecode SafetyFacts SafetyOps NeverFacts SpecEnds EndsFacts EndsLoad.
Import ListNotations.
Open Scope N_scope.

(** ** Values *)

Lemma nv_on_vm {A} (m : M vm A) : never m -> never (on_vm m).
Proof. intros H s. unfold on_vm. nv_same m (x_vm s) H. Qed.
Lemma nv_pure_op {S A} (m : M S A) : (forall s, m s <> NoFuel) -> never m.
Proof. intros H s. apply H. Qed.
Lemma nv_arith {S} p t x : never (S := S) (arith p t x).
Proof. unfold arith. nv. Qed.
Lemma nv_int_div {S} t a b : never (S := S) (int_div t a b).
Proof. unfold int_div. nv. Qed.
Lemma nv_int_rem {S} t a b : never (S := S) (int_rem t a b).
Proof. unfold int_rem. nv. Qed.
Lemma nv_shift_amount {S} p t b : never (S := S) (shift_amount p t b).
Proof. unfold shift_amount. nv. Qed.
Lemma nv_binary {S} w f g a b : (forall t x y, never (f t x y)) -> never (S := S) (binary w f g a b).
Proof. intro H. unfold binary. destruct a, b; nv; try apply H. Qed.
Ltac nv_value := intros; unfold v_add, v_sub, v_mul, v_div, v_rem, v_and, v_or, v_xor, v_shl, v_shr, v_lt, v_le, v_gt, v_ge, eq_test;
  first [ apply nv_binary; intros; first [apply nv_arith|apply nv_int_div|apply nv_int_rem
          |apply nv_bind; [apply nv_shift_amount|intro; apply nv_ret]|apply nv_ret]
        | idtac ].
Lemma nv_v_neg {S} p a : never (S := S) (v_neg p a).
Proof. unfold v_neg. destruct a; nv. apply nv_arith. Qed.
Lemma nv_v_not {S} a : never (S := S) (v_not a).
Proof. unfold v_not. destruct a; nv. Qed.
Lemma nv_is_zero {S} a : never (S := S) (is_null_or_zero a).
Proof. unfold is_null_or_zero. nv. Qed.
Lemma nv_v_cmp {S} a b : never (S := S) (v_cmp a b).
Proof. unfold v_cmp. nv. Qed.
Lemma nv_v_eq {S} a b : never (S := S) (v_eq a b).
Proof. unfold v_eq. nv. Qed.

Lemma nv_the_type t : never (the_type t).
Proof. unfold the_type. nv. Qed.
Lemma nv_the_assembly a : never (the_assembly a).
Proof. unfold the_assembly. nv. Qed.
Lemma nv_get_type n : never (get_type n).
Proof. intros s. discriminate. Qed.
Lemma nv_named n : never (named n).
Proof. unfold named. apply nv_bind; [apply nv_get_type|intros [u|]; intro; discriminate]. Qed.
#[export] Hint Resolve nv_the_type nv_the_assembly nv_get_type nv_named : nv.

(** ** The runtime during execution *)

Section Steps.
  Variables (p : profile) (top : nat) (o : order) (s0 : vm).
  Hypothesis O : order_ok top o.
  Hypothesis V : vectors s0.

  Definition kept (v : vm) : Prop := orderly o v /\ c_arena v = c_arena s0 /\ exists l, c_types v = c_types s0 ++ l.
  Definition J (s : machine) : Prop := kept (x_vm s).

  Lemma kept_vectors v : kept v -> vectors v.
  Proof. intros (_ & E & _) a ai H. rewrite E in H. exact (V a ai H). Qed.
  Lemma kept_denotes v a tok m : kept v -> denotes v a tok m -> denotes s0 a tok m.
  Proof. intros (_ & E & _) (ai & r & H & K). rewrite E in H. exists ai, r. auto. Qed.
  Lemma kept_type v t ti : kept v -> nth_error (c_types s0) t = Some ti -> nth_error (c_types v) t = Some ti.
  Proof. intros (_ & _ & l & E) H. rewrite E, nth_error_app1; [exact H|exact (nth_lt _ _ _ H)]. Qed.

  Definition quiet {A} (m : M machine A) (Q : A -> Prop) : Prop := forall s, J s ->
    match m s with Ok a s' => J s' /\ Q a | Err _ s' => J s' | NoFuel => False | _ => True end.
  Definition any {A} (a : A) : Prop := True.
  Lemma q_bind {A B} (m : M machine A) (k : A -> M machine B) P Q : quiet m P -> (forall a, P a -> quiet (k a) Q) -> quiet (bind m k) Q.
  Proof. intros Hm Hk s Hs. unfold bind. specialize (Hm s Hs). destruct (m s) as [a s1|e s1|w|w|]; auto. destruct Hm as [H1 H2]. exact (Hk a H2 s1 H1). Qed.
  Lemma q_then {A B} (m : M machine A) (k : A -> M machine B) Q : quiet m any -> (forall a, quiet (k a) Q) -> quiet (bind m k) Q.
  Proof. intros Hm Hk. eapply q_bind; [exact Hm|intros a _; apply Hk]. Qed.
  Lemma q_ret {A} (a : A) (Q : A -> Prop) : Q a -> quiet (ret a) Q.
  Proof. intros H s Hs. split; auto. Qed.
  Lemma q_fail {A} e (Q : A -> Prop) : quiet (fail e) Q.
  Proof. intros s Hs. exact Hs. Qed.
  Lemma q_panic {A} e (Q : A -> Prop) : quiet (panic e) Q.
  Proof. intros s Hs. exact Logic.I. Qed.
  Lemma q_pure {A} (m : M machine A) : pure m -> never m -> quiet m any.
  Proof.
    intros P N s Hs. specialize (P s). specialize (N s). destruct (m s) as [a s1|e s1|w|w|]; auto; subst; auto.
    split; [exact Hs|exact Logic.I].
  Qed.
  (** Code that leaves the runtime alone. *)
  Definition aside {A} (m : M machine A) : Prop := forall s,
    match m s with Ok _ s' | Err _ s' => x_vm s' = x_vm s | NoFuel => False | _ => True end.
  Lemma as_quiet {A} (m : M machine A) : aside m -> quiet m any.
  Proof.
    intros H s Hs. specialize (H s). unfold J in *. destruct (m s) as [a s1|e s1|w|w|]; auto; rewrite H; auto.
    split; [exact Hs|exact Logic.I].
  Qed.
  Lemma as_bind {A B} (m : M machine A) (k : A -> M machine B) : aside m -> (forall a, aside (k a)) -> aside (bind m k).
  Proof.
    intros Hm Hk s. unfold bind. specialize (Hm s). destruct (m s) as [a s1|e s1|w|w|]; auto. specialize (Hk a s1).
    destruct (k a s1); auto; congruence.
  Qed.
  Lemma as_pure {A} (m : M machine A) : pure m -> never m -> aside m.
  Proof. intros P N s. specialize (P s). specialize (N s). destruct (m s); subst; auto. Qed.
  Lemma as_load b d n : aside (load b d n).
  Proof. intro s. unfold load. destruct (negb _); [exact Logic.I|]. destruct (_ <=? _); [reflexivity|exact Logic.I]. Qed.
  Lemma as_store b d bs : aside (store b d bs).
  Proof. intro s. unfold store. cbv zeta. destruct (negb _); [exact Logic.I|]. destruct (_ <=? _); [reflexivity|exact Logic.I]. Qed.
  Lemma as_reserve n : aside (vec_reserve n).
  Proof. intro s. unfold vec_reserve. cbv zeta. destruct (_ <? _); [destruct (_ <? _); [exact Logic.I|reflexivity]|reflexivity]. Qed.
  Lemma as_room n : aside (make_room p n).
  Proof.
    unfold make_room, ensure_size, vec_resize.
    repeat first [ apply as_bind; [|intro] | apply as_reserve
      | match goal with |- aside (if ?b then _ else _) => destruct b end
      | match goal with |- aside (ovf ?b) => destruct b; intro; [reflexivity|exact Logic.I] end
      | intro; reflexivity ].
  Qed.
  Lemma as_flag b f : aside (add_flag b f).
  Proof. unfold add_flag. apply as_bind; [apply as_load|intro; apply as_store]. Qed.
  Lemma as_cell_get c i : aside (cell_get c i).
  Proof. apply as_pure; [apply pure_cell_get|]. unfold cell_get. nv. Qed.
  Lemma as_cell_set c i v : aside (cell_set c i v).
  Proof. intro s. unfold cell_set. cbv zeta. destruct c; repeat (match goal with |- context [if ?b then _ else _] => destruct b end; try exact Logic.I; try reflexivity). Qed.
  Lemma as_alloc n : aside (stackalloc n).
  Proof. intro s. unfold stackalloc. cbv zeta. reflexivity. Qed.
  Lemma as_push v : aside (push v). Proof. intro s. reflexivity. Qed.
  Lemma as_try_pop : aside try_pop. Proof. intro s. unfold try_pop. destruct (x_operands s); reflexivity. Qed.
  Lemma as_ret {A} (a : A) : aside (ret a). Proof. intro s. reflexivity. Qed.
  Lemma as_fail {A} e : aside (@fail machine A e). Proof. intro s. reflexivity. Qed.
  Lemma as_panic {A} e : aside (@panic machine A e). Proof. intro s. exact Logic.I. Qed.
  Lemma as_unwrap {A} (x : option A) : aside (unwrap x). Proof. destruct x; [apply as_ret|apply as_panic]. Qed.
  Lemma as_ovf {A} (x : option A) : aside (ovf x). Proof. destruct x; [apply as_ret|apply as_panic]. Qed.
  Lemma as_vm {A} (m : M vm A) : pure m -> never m -> aside (on_vm m).
  Proof. intros P N. apply as_pure; [now apply pure_on_vm|now apply nv_on_vm]. Qed.

  Lemma nv_type_eq t u : never (type_eq t u).
  Proof. unfold type_eq. nv. Qed.
  Lemma nv_held_as l q t : never (held_as l q t).
  Proof. induction l as [|[h pt] l IH]; cbn [held_as]; [apply nv_ret|]. apply nv_bind; [apply nv_type_eq|intros [|]; [apply nv_ret|exact IH]]. Qed.
  Lemma nv_id_of t : never (id_of t).
  Proof. unfold id_of. nv. Qed.
  Lemma nv_primitives : never the_primitives.
  Proof. unfold the_primitives. nv. Qed.
  Lemma nv_get_row {A} (l : list A) tok : never (get_row p l tok).
  Proof. unfold get_row. nv. Qed.
  Lemma nv_resolve_method a tok : never (resolve_method p a tok).
  Proof. unfold resolve_method. nv; apply nv_get_row. Qed.
  Lemma nv_resolve_field a tok : never (resolve_field p a tok).
  Proof. unfold resolve_field. nv; apply nv_get_row. Qed.
  Lemma nv_resolve_type a tok : never (resolve_type p a tok).
  Proof. unfold resolve_type. nv; apply nv_get_row. Qed.
  Lemma nv_get_string a tok : never (get_string p a tok).
  Proof. unfold get_string. nv. Qed.

  Ltac aside :=
    repeat (cbv beta zeta;
      lazymatch goal with
      | |- aside (bind _ _) => apply as_bind; [|intro]
      | |- aside (ret _) => apply as_ret
      | |- aside (fail _) => apply as_fail
      | |- aside (panic _) => apply as_panic
      | |- aside (unwrap _) => apply as_unwrap
      | |- aside (ovf _) => apply as_ovf
      | |- aside (load _ _ _) => apply as_load
      | |- aside (store _ _ _) => apply as_store
      | |- aside (push _) => apply as_push
      | |- aside try_pop => apply as_try_pop
      | |- aside (cell_get _ _) => apply as_cell_get
      | |- aside (cell_set _ _ _) => apply as_cell_set
      | |- aside (on_vm the_primitives) => apply as_vm; [apply pure_the_primitives|apply nv_primitives]
      | |- aside (on_vm (id_of _)) => apply as_vm; [apply pure_id_of|apply nv_id_of]
      | |- aside (on_vm (held_as _ _ _)) => apply as_vm; [apply pure_held_as|apply nv_held_as]
      | |- aside (on_vm (named _)) => apply as_vm; [apply pure_named|nv]
      | |- aside (on_vm (get_type _)) => apply as_vm; [apply pure_get_type|nv]
      | |- aside (on_vm (type_eq _ _)) => apply as_vm; [apply pure_type_eq|apply nv_type_eq]
      | |- aside (on_vm (resolve_method _ _ _)) => apply as_vm; [apply pure_resolve_method|apply nv_resolve_method]
      | |- aside (on_vm (resolve_field _ _ _)) => apply as_vm; [apply pure_resolve_field|apply nv_resolve_field]
      | |- aside (on_vm (resolve_type _ _ _)) => apply as_vm; [apply pure_resolve_type|apply nv_resolve_type]
      | |- aside (on_vm (get_string _ _ _)) => apply as_vm; [apply pure_get_string|apply nv_get_string]
      | |- aside (match ?x with _ => _ end) => destruct x
      | |- aside (fun s => _) => let s := fresh "s" in intro s; cbv beta
      | |- match (match ?x with _ => _ end) with _ => _ end => destruct x
      | |- x_vm _ = x_vm _ => reflexivity
      | |- True => exact Logic.I
      end).
  Lemma as_pop : aside pop. Proof. unfold pop. aside. Qed.
  Lemma as_peek : aside peek_top. Proof. unfold peek_top. aside. Qed.
  Lemma as_pop_i32 : aside pop_i32. Proof. unfold pop_i32. apply as_bind; [apply as_pop|intro]. aside. Qed.
  Lemma as_pop_array : aside pop_array.
  Proof. unfold pop_array, as_array, flags_of. apply as_bind; [apply as_pop|intro]. aside. Qed.
  Lemma as_set_field b f v : aside (set_field b f v).
  Proof. unfold set_field, raw_object, flags_of. aside. Qed.
  Lemma as_get_field b f : aside (get_field_value b f).
  Proof. unfold get_field_value, raw_object, flags_of. aside. Qed.
  Lemma as_i32_slice b : aside (i32_slice b).
  Proof. unfold i32_slice, array_slice, type_of. aside. Qed.
  Lemma as_slice_set b h n i bs : aside (slice_set b h n i bs).
  Proof. unfold slice_set. aside. Qed.
  Lemma as_slice_get b h n i : aside (slice_get b h n i).
  Proof. unfold slice_get. aside. Qed.
  Lemma as_text p0 text : p0 = p -> aside (alloc_string p0 text).
  Proof. intros ->. unfold alloc_string. apply as_bind; [aside|intro]. apply as_bind; [aside|intro]. apply as_bind; [apply as_room|intro].
    apply as_bind; [apply as_flag|intro]. aside. Qed.

  (** ** Sizes and new vectors *)

  Definition depth : nat := (2 * top + 2)%nat.
  Lemma q_size f t : (depth <= f)%nat -> quiet (on_vm (type_size f p t)) any.
  Proof.
    intros F s Hs. unfold on_vm. pose proof (pure_type_size p f t (x_vm s)) as P.
    assert (N : type_size f p t (x_vm s) <> NoFuel).
    { destruct (nth_error (c_types (x_vm s)) t) as [ti|] eqn:E.
      - pose proof (lk_size top o O p (x_vm s) (proj1 Hs) f t (ti_full_name ti)) as L. unfold looks in L.
        intro X. rewrite X in L. apply L; [now exists ti|]. right. pose proof (oo_top _ _ O (ti_full_name ti)). unfold depth in F. lia.
      - destruct f as [|f]; [unfold depth in F; lia|]. cbn [type_size]. unfold primitive_sizes. cbn [try_sizes].
        match goal with |- bind (bind ?m ?k) ?k' ?v <> _ => assert (X : exists w, bind m k v = Panic w) end.
        { unfold bind at 1, named, bind at 1, get_type. destruct (map_get _ _ _) as [u|]; cbn [unwrap]; [|eexists; reflexivity]. cbn [ret].
          unfold bind at 1, type_eq, bind at 1, the_type at 1. rewrite E. eexists. reflexivity. }
        destruct X as (w & X). unfold bind at 1. rewrite X. discriminate. }
    destruct (type_size f p t (x_vm s)) as [n v|e v|w|w|]; auto; subst v; [split; [exact Hs|exact Logic.I]|exact Hs].
  Qed.
  Lemma array_of_keeps t s u s' : array_of p t s = Ok u s' -> c_arena s' = c_arena s /\ exists l, c_types s' = c_types s ++ l.
  Proof.
    intro E. unfold array_of in E. apply bind_inv_ok in E as (e & s1 & E1 & E). unfold the_type in E1.
    destruct (nth_error _ _); [|discriminate]. injection E1 as <- <-. cbv zeta in E.
    apply bind_inv_ok in E as (r & s1 & E1 & E). injection E1 as <- <-.
    destruct (map_get _ _ _); [injection E as <- <-; split; [reflexivity|exists []; now rewrite app_nil_r]|].
    apply bind_inv_ok in E as (id & s1 & E1 & E). unfold next_type_id in E1. destruct (u_add _ _ _ _); [|discriminate]. injection E1 as <- <-.
    apply bind_inv_ok in E as (b & s1 & E1 & E). injection E1 as <- <-. unfold add_type in E. cbv zeta in E. injection E as <- <-.
    cbn. split; [reflexivity|eauto].
  Qed.
  Lemma array_of_no_err t s e s' : array_of p t s <> Err e s'.
  Proof.
    unfold array_of, bind, the_type. destruct (nth_error _ _); [|discriminate]. cbv zeta. unfold get_type.
    destruct (map_get _ _ _); [discriminate|]. unfold next_type_id. destruct (u_add _ _ _ _); discriminate.
  Qed.
  Lemma q_array_of t : quiet (on_vm (array_of p t)) any.
  Proof.
    intros s (W & A & l & T). unfold on_vm.
    destruct (array_of p t (x_vm s)) as [u v|e v|w|w|] eqn:E; auto.
    - destruct (array_of_keeps _ _ _ _ E) as (A' & l' & T'). split; [|exact Logic.I]. split; [|split].
      + destruct (nth_error (c_types (x_vm s)) t) as [ti|] eqn:Et.
        * pose proof (fs_array_of top o O p (x_vm s) t (ti_full_name ti) ltac:(now exists ti) W) as F. rewrite E in F. apply F.
        * unfold array_of, bind, the_type in E. rewrite Et in E. discriminate.
      + cbn. now rewrite A', A.
      + cbn. exists (l ++ l'). now rewrite T', T, app_assoc.
    - now apply array_of_no_err in E.
    - destruct (nth_error (c_types (x_vm s)) t) as [ti|] eqn:Et.
      + pose proof (fs_array_of top o O p (x_vm s) t (ti_full_name ti) ltac:(now exists ti) W) as F. now rewrite E in F.
      + unfold array_of, bind, the_type in E. rewrite Et in E. discriminate.
  Qed.
  Ltac plain := apply as_quiet; aside.
  Lemma q_alloc f t : (depth <= f)%nat -> quiet (alloc f p t) any.
  Proof.
    intro F. unfold alloc. apply q_then; [now apply q_size|intro]. apply q_then; [plain|intro].
    apply q_then; [apply as_quiet, as_room|intro]. plain.
  Qed.
  Lemma q_alloc_array f t n : (depth <= f)%nat -> quiet (alloc_array f p t n) any.
  Proof.
    intro F. unfold alloc_array. apply q_then; [now apply q_size|intro]. apply q_then; [plain|intro]. apply q_then; [plain|intro].
    apply q_then; [apply as_quiet, as_room|intro]. apply q_then; [apply as_quiet, as_flag|intro].
    apply q_then; [apply q_array_of|intro]. plain.
  Qed.

  (** ** Where execution goes on *)

  Definition onward (fr : frame) (x : outcome) : Prop :=
    match x with
    | ONext fr' => same_frame fr fr' /\ (comes_after (fr_code fr) (fr_ip fr) (fr_ip fr') \/ len (fr_code fr) <= fr_ip fr')
    | OReturn _ => True
    | OCall m _ _ fr' => same_frame fr fr' /\ comes_after (fr_code fr) (fr_ip fr) (fr_ip fr') /\
        calls_at s0 (fr_assembly fr) (fr_code fr) (fr_ip fr) m
    end.

  Lemma operand_here code ip op n : bytes_at code ip op -> ip + len op + n <= len code ->
    bytes_at code ip (op ++ sub_list (ip + len op) n code) /\ len (sub_list (ip + len op) n code) = n.
  Proof.
    intros (pre & post & -> & ->) L. split; [|now apply len_sub_list].
    rewrite !len_app in L.
    assert (E : sub_list (len pre + len op) n (pre ++ op ++ post) = firstn (N.to_nat n) post).
    { unfold sub_list. rewrite app_assoc. replace (N.to_nat (len pre + len op)) with (List.length (pre ++ op)) by (rewrite app_length; unfold len; lia).
      now rewrite skipn_app, skipn_all, Nat.sub_diag. }
    rewrite E. exists pre, (skipn (N.to_nat n) post). split; [|reflexivity]. rewrite <- app_assoc. f_equal. f_equal. symmetry. apply firstn_skipn.
  Qed.
  Lemma next_after fr op n : instruction fr op -> In (op, n) operand_sizes -> (op = [xfe; x09] \/ op = [xfe; x0b] -> n = 4) ->
    op <> [x2b] -> op <> [x38] -> fr_ip fr + len op + n <= len (fr_code fr) ->
    comes_after (fr_code fr) (fr_ip fr) (fr_ip fr + len op + n).
  Proof. intros I H4 Hl J1 J2 L. destruct (operand_here _ _ _ _ I L) as [B E]. eapply the_next; eauto. Qed.
  Lemma instruction_bound fr op : instruction fr op -> fr_ip fr + len op <= len (fr_code fr).
  Proof. intros (pre & post & -> & ->). rewrite !len_app. lia. Qed.

  Lemma jump_after fr i n : instruction fr [i] -> In ([i], n) branch_formats -> fr_ip fr + 1 + n <= len (fr_code fr) -> len (fr_code fr) < 2 ^ 63 ->
    let t := to_unsigned 64 (Z.of_N (fr_ip fr + 1 + n) + to_signed (8 * n) (le_dec (sub_list (fr_ip fr + 1) n (fr_code fr)))) in
    comes_after (fr_code fr) (fr_ip fr) t \/ len (fr_code fr) <= t.
  Proof.
    intros Hi Hn L Hc t. destruct (operand_here _ _ [i] n Hi) as [B E]; [exact L|]. change (len [i]) with 1 in *.
    assert (Hp : n = 1 \/ n = 4).
    { revert Hn. unfold branch_formats. cbn [In]. intuition; match goal with H : _ = _ |- _ => injection H as _ <- end; auto. }
    set (bs := sub_list (fr_ip fr + 1) n (fr_code fr)) in *.
    assert (Nb : (0 < List.length bs)%nat) by (unfold len in E; lia).
    assert (S : to_signed (8 * n) (le_dec bs) = signed_number bs).
    { rewrite <- E. symmetry. apply signed_number_le_dec. intro X. rewrite X in Nb. cbn in Nb. lia. }
    pose proof (LangFacts.signed_number_range bs Nb) as R. unfold t. rewrite S. clear t.
    assert (R' : (- 2 ^ 31 <= signed_number bs < 2 ^ 31)%Z).
    { replace (Z.of_nat (List.length bs)) with (Z.of_N n) in R by (rewrite <- E; unfold len; lia).
      destruct Hp as [-> | ->]; cbn in R |- *; lia. }
    set (d := signed_number bs) in *. unfold to_unsigned. change (2 ^ Z.of_N 64)%Z with (2 ^ 64)%Z.
    destruct (Z_lt_le_dec (Z.of_N (fr_ip fr + 1 + n) + d) 0) as [K|K].
    - right. replace ((Z.of_N (fr_ip fr + 1 + n) + d) mod 2 ^ 64)%Z with (Z.of_N (fr_ip fr + 1 + n) + d + 2 ^ 64)%Z.
      + change (2 ^ 64)%Z with (2 ^ 63 + 2 ^ 63)%Z. change (2 ^ 63) with (Z.to_N (2 ^ 63)) in Hc.
        assert (2 ^ 31 < 2 ^ 63)%Z by reflexivity. lia.
      + apply Z.mod_unique with (-1)%Z; [left|lia]. assert (2 ^ 31 < 2 ^ 64)%Z by reflexivity. lia.
    - left. eapply the_target with (n := n); [exact Hn|exact B|exact E|].
      rewrite Z.mod_small.
      + rewrite Z2N.id by lia. fold d. lia.
      + split; [exact K|]. change (2 ^ 63) with (Z.to_N (2 ^ 63)) in Hc. change (2 ^ 64)%Z with (2 ^ 63 + 2 ^ 63)%Z.
        assert (2 ^ 31 < 2 ^ 63)%Z by reflexivity. lia.
  Qed.

  Lemma q_il_get fr n (k : N * frame -> M machine outcome) Q :
    (fr_ip fr + n <= len (fr_code fr) -> quiet (k (le_dec (sub_list (fr_ip fr) n (fr_code fr)), set_ip fr (fr_ip fr + n))) Q) ->
    quiet (bind (il_get fr n) k) Q.
  Proof.
    intros H s Hs. unfold bind, il_get. destruct (N.leb_spec (fr_ip fr + n) (len (fr_code fr))) as [L|L]; [|exact Logic.I].
    exact (H L s Hs).
  Qed.
  Lemma q_il_signed fr n (k : Z * frame -> M machine outcome) Q :
    (fr_ip fr + n <= len (fr_code fr) -> quiet (k (to_signed (8 * n) (le_dec (sub_list (fr_ip fr) n (fr_code fr))), set_ip fr (fr_ip fr + n))) Q) ->
    quiet (bind (il_signed fr n) k) Q.
  Proof.
    intros H s Hs. unfold bind, il_signed, bind, il_get. destruct (N.leb_spec (fr_ip fr + n) (len (fr_code fr))) as [L|L]; [|exact Logic.I].
    exact (H L s Hs).
  Qed.
  Lemma q_next fr fr' : onward fr (ONext fr') -> quiet (next fr') (onward fr).
  Proof. apply q_ret. Qed.

  Lemma pop_args_aside c : forall n, aside (pop_args c n).
  Proof. induction n as [|n IH]; cbn [pop_args]; [apply as_ret|]. apply as_bind; [apply as_pop|intro v]. apply as_bind; [apply as_cell_set|intros _; exact IH]. Qed.
  Lemma q_method_call fr fr' i r : instruction fr [i] -> i = x28 \/ i = x73 -> fr' = set_ip fr (fr_ip fr + 1 + 4) ->
    fr_ip fr + 1 + 4 <= len (fr_code fr) ->
    quiet (method_call p fr' (le_dec (sub_list (fr_ip fr + 1) 4 (fr_code fr))) r) (onward fr).
  Proof.
    intros Hi C -> L s Hs. destruct (operand_here _ _ [i] 4 Hi L) as [B E]. change (len [i]) with 1 in *.
    assert (C2 : comes_after (fr_code fr) (fr_ip fr) (fr_ip fr + 1 + 4)).
    { change (fr_ip fr + 1 + 4) with (fr_ip fr + len [i] + 4). apply next_after; [exact Hi|..|exact L]; destruct C as [-> | ->].
      1, 2: vm_compute; tauto. 1, 2: intros [X|X]; discriminate X. all: discriminate. }
    unfold method_call, bind at 1, on_vm. cbn [fr_assembly set_ip].
    set (tok := le_dec _).
    assert (Lb : List.length (sub_list (fr_ip fr + 1) 4 (fr_code fr)) = 4%nat) by (unfold len in E; lia).
    assert (T : tok = Z.to_N (number (sub_list (fr_ip fr + 1) 4 (fr_code fr)))) by (unfold tok; now rewrite number_le_dec, N2Z.id).
    pose proof (number_bound _ Lb) as Bd. rewrite <- T in Bd.
    pose proof (nv_resolve_method (fr_assembly fr) tok (x_vm s)) as N. pose proof (pure_resolve_method p (fr_assembly fr) tok (x_vm s)) as P.
    destruct (resolve_method p (fr_assembly fr) tok (x_vm s)) as [[m|] v|e v|w|w|] eqn:Er; subst; auto.
    apply resolve_method_inv in Er; [|exact (kept_vectors _ Hs)|exact Bd]. apply (kept_denotes _ _ _ _ Hs) in Er.
    assert (Cm : calls_at s0 (fr_assembly fr) (fr_code fr) (fr_ip fr) m).
    { exists i, (sub_list (fr_ip fr + 1) 4 (fr_code fr)). rewrite <- T. auto. }
    cbv zeta. refine (q_then _ _ _ _ _ (set_vm s (x_vm s)) Hs); [apply as_quiet, as_alloc|intro c].
    apply q_then; [apply as_quiet, pop_args_aside|intros _]. apply q_ret. split; [repeat split|]. split; [exact C2|exact Cm].
  Qed.
  Lemma q_newobj f fr : (depth <= f)%nat -> instruction fr [x73] -> quiet (newobj f p (set_ip fr (fr_ip fr + 1))) (onward fr).
  Proof.
    intros F Hi. unfold newobj. apply q_il_get. cbn [fr_ip fr_code set_ip]. intro L.
    apply q_then; [apply as_quiet; aside|intro x]. apply q_then; [apply as_quiet, as_unwrap|intro ctor].
    apply q_then; [now apply q_alloc|intro b]. apply q_then; [apply as_quiet|intros _].
    - intro s. destruct (Nat.leb _ _); [reflexivity|exact Logic.I].
    - apply (q_method_call fr _ x73); auto.
  Qed.

  Ltac value := first
    [ apply q_pure; [apply pure_is_null_or_zero|apply nv_is_zero]
    | apply q_pure; [apply pure_v_neg|apply nv_v_neg]
    | apply q_pure; [apply pure_v_not|apply nv_v_not]
    | apply q_pure; [unfold eq_test; apply pure_v_eq|unfold eq_test; apply nv_v_eq]
    | apply q_pure; [apply pure_ordered|apply nv_bind; [apply nv_v_cmp|intro; apply nv_ret]]
    | apply q_pure; [operator|nv_value] ].
  Ltac walk :=
    repeat (cbv beta iota zeta;
      lazymatch goal with
      | |- quiet (next _) _ => apply q_next
      | |- quiet (fail _) _ => apply q_fail
      | |- quiet (panic _) _ => apply q_panic
      | |- quiet (ret (OReturn _)) _ => apply q_ret; exact Logic.I
      | |- quiet (bind (il_get _ _) _) _ => apply q_il_get; cbn [fr_ip fr_code set_ip]; intro
      | |- quiet (bind (il_signed _ _) _) _ => apply q_il_signed; cbn [fr_ip fr_code set_ip]; intro
      | |- quiet (bind pop _) _ => apply q_then; [apply as_quiet, as_pop|intro]
      | |- quiet (bind peek_top _) _ => apply q_then; [apply as_quiet, as_peek|intro]
      | |- quiet (bind pop_i32 _) _ => apply q_then; [apply as_quiet, as_pop_i32|intro]
      | |- quiet (bind pop_array _) _ => apply q_then; [apply as_quiet, as_pop_array|intro]
      | |- quiet (bind (i32_slice _) _) _ => apply q_then; [apply as_quiet, as_i32_slice|intro]
      | |- quiet (bind (slice_set _ _ _ _ _) _) _ => apply q_then; [apply as_quiet, as_slice_set|intro]
      | |- quiet (bind (slice_get _ _ _ _) _) _ => apply q_then; [apply as_quiet, as_slice_get|intro]
      | |- quiet (bind (set_field _ _ _) _) _ => apply q_then; [apply as_quiet, as_set_field|intro]
      | |- quiet (bind (get_field_value _ _) _) _ => apply q_then; [apply as_quiet, as_get_field|intro]
      | |- quiet (bind (alloc_array _ _ _ _) _) _ => apply q_then; [now apply q_alloc_array|intro]
      | |- quiet (bind (alloc_string _ _) _) _ => apply q_then; [apply as_quiet; now apply as_text|intro]
      | |- quiet (bind (match ?x with _ => _ end) _) _ => apply q_then; [apply as_quiet; aside|intro]
      | |- quiet (bind _ _) _ => apply q_then; [first [apply as_quiet; solve [aside] | value]|intro]
      | |- quiet (match ?x with _ => _ end) _ => destruct x
      end).
  Lemma onward_next fr op n fr' : instruction fr op -> fr' = set_ip fr (fr_ip fr + len op + n) ->
    existsb (fun q => bytes_eqb op (fst q) && (n =? snd q)) operand_sizes = true ->
    (bytes_eqb op [xfe; x09] || bytes_eqb op [xfe; x0b] = true -> n = 4) ->
    bytes_eqb op [x2b] || bytes_eqb op [x38] = false -> fr_ip fr + len op + n <= len (fr_code fr) -> onward fr (ONext fr').
  Proof.
    intros Hi -> Hf Hl Hj L. split; [repeat split|]. left. cbn [fr_ip set_ip]. apply existsb_exists in Hf as ([op' n'] & H & E).
    cbn [fst snd] in E. apply andb_prop in E as [E1 E2]. apply bytes_eqb_spec in E1. apply N.eqb_eq in E2. subst op' n'.
    apply orb_false_iff in Hj as [J1 J2]. apply next_after; auto.
    - intros H0. apply Hl. destruct H0 as [-> | ->]; reflexivity.
    - intros ->. discriminate J1.
    - intros ->. discriminate J2.
  Qed.
  Lemma onward_jump fr i n fr' : instruction fr [i] -> len (fr_code fr) < 2 ^ 63 ->
    fr' = set_ip fr (to_unsigned 64 (Z.of_N (fr_ip fr + 1 + n) + to_signed (8 * n) (le_dec (sub_list (fr_ip fr + 1) n (fr_code fr))))) ->
    existsb (fun q => bytes_eqb [i] (fst q) && (n =? snd q)) branch_formats = true ->
    fr_ip fr + 1 + n <= len (fr_code fr) -> onward fr (ONext fr').
  Proof.
    intros Hi Hc -> Hf L. split; [repeat split|]. cbn [fr_ip set_ip]. apply existsb_exists in Hf as ([op' n'] & H & E).
    cbn [fst snd] in E. apply andb_prop in E as [E1 E2]. apply bytes_eqb_spec in E1. apply N.eqb_eq in E2. subst op' n'.
    apply (jump_after fr i n); auto.
  Qed.
  Lemma exec_onward f op fr : (depth <= f)%nat -> len (fr_code fr) < 2 ^ 63 -> instruction fr (opcode_bytes op) ->
    quiet (exec_op f p op (set_ip fr (fr_ip fr + len (opcode_bytes op)))) (onward fr).
  Proof.
    intros F Hc Hi. pose proof (instruction_bound _ _ Hi) as Hb.
    destruct op;
    match goal with |- context [opcode_bytes ?o] => let b := eval vm_compute in (opcode_bytes o) in change (opcode_bytes o) with b in * end;
    match goal with |- context [len ?b] => let n := eval vm_compute in (len b) in change (len b) with n in * end;
    unfold exec_op; cbv zeta; cbn match; cbn [fr_locals fr_params set_ip];
    lazymatch goal with
    | |- quiet (fail _) _ => apply q_fail
    | |- quiet (newobj _ _ _) _ => now apply q_newobj
    | |- _ => unfold ldc, ld_n, st_n, ld, st, br, br_if, br_cmp, compare, op2, op1, stfld, ldfld, newarr, stelem_i4, ldelem_i4, ldstr, ret_op; walk
    end;
    lazymatch goal with
    | |- quiet (method_call _ _ _ _) _ => eapply q_method_call; eauto
    | |- onward _ (ONext (if ?b then _ else _)) => destruct b
    | |- _ => idtac
    end;
    first
    [ eapply onward_next with (n := 0); [exact Hi|rewrite N.add_0_r; reflexivity|vm_compute; reflexivity|vm_compute; discriminate|reflexivity|rewrite N.add_0_r; exact Hb]
    | eapply onward_next; [exact Hi|reflexivity|vm_compute; reflexivity|vm_compute; first [discriminate|reflexivity]|reflexivity|eassumption]
    | eapply onward_jump; [exact Hi|exact Hc|reflexivity|vm_compute; reflexivity|eassumption] ].
  Qed.
  Lemma step_onward f fr : (depth <= f)%nat -> len (fr_code fr) < 2 ^ 63 -> quiet (step f p fr) (onward fr).
  Proof.
    intros F Hc s Hs. unfold step, bind. pose proof (get_opcode_run fr s) as G. pose proof (get_opcode_frame fr s) as G'.
    assert (N : never (get_opcode fr)) by (unfold get_opcode, code_at; nv). specialize (N s).
    destruct (get_opcode fr s) as [[op fr1] s1|e s1|w|w|]; auto; [|destruct G'].
    destruct G as (-> & Hi & ->). exact (exec_onward f op fr F Hc Hi s Hs).
  Qed.
  (** Behind the end of the code there is no instruction. *)
  Lemma step_outside f fr s : len (fr_code fr) <= fr_ip fr -> step f p fr s = Panic "index out of bounds".
  Proof.
    intro L. unfold step, bind, get_opcode, bind, code_at.
    destruct (nth_error (fr_code fr) (N.to_nat (fr_ip fr))) eqn:E; [|reflexivity]. apply nth_lt in E. unfold len in L. lia.
  Qed.

  (** ** Whole executions *)

  Section Methods.
    Variables (T : method_info -> Prop) (steps : method_info -> N -> nat).
    Hypothesis G : goes_down s0 T steps.

    Lemma q_in_frame {A} (m : M machine A) : quiet m any -> quiet (in_frame m) any.
    Proof.
      intros H s Hs. unfold in_frame. specialize (H (set_alloc s 0) Hs). cbv zeta.
      destruct (m (set_alloc s 0)) as [a s1|e s1|w|w|]; auto.
    Qed.
    Lemma q_console c : quiet (console_write c) any.
    Proof.
      unfold console_write. apply q_then; [apply as_quiet, as_cell_get|intro v]. destruct v; try apply q_panic.
      apply q_then; [apply as_quiet; unfold as_string, flags_of; aside|intro b]. destruct b; [|apply q_panic].
      apply q_then; [apply as_quiet; unfold string_data; aside|intro units].
      apply q_then; [apply as_quiet, as_unwrap|intro text]. apply q_then; [|intros _; now apply q_ret].
      intros s ([B I F N A] & E & l & Et). cbn. split; [|exact Logic.I]. split; [split; assumption|]. split; [exact E|exists l; exact Et].
    Qed.
    Lemma q_push_if v : quiet (push_if v) any.
    Proof. destruct v; [apply as_quiet, as_push|now apply q_ret]. Qed.
    Lemma q_invoke (rn : frame -> M machine (option value)) m args : T m ->
      (forall b ti loc, mt_impl m = IIL b -> nth_error (c_types s0) (mt_declaring m) = Some ti ->
        quiet (rn (mkFrame m (ti_assembly ti) (b_code b) 0 loc args)) any) -> quiet (invoke rn m args) any.
    Proof.
      intros Hm H. unfold invoke. destruct (mt_impl m) as [|b|i] eqn:Ei; [apply q_panic| |destruct i; first [apply q_panic|apply q_console]].
      destruct (gd_size _ _ _ G m b Hm Ei) as (_ & ti & Et).
      apply q_bind with (fun x => x = ti).
      - intros s Hs. unfold on_vm, the_type. rewrite (kept_type _ _ _ Hs Et). auto.
      - intros x ->. apply q_then; [apply as_quiet, as_vm; [apply pure_the_assembly|nv]|intros _].
        apply q_in_frame. apply q_then; [apply as_quiet, as_alloc|intro loc]. eapply H; eauto.
    Qed.

    Lemma q_run : forall f m b ti fr, T m -> mt_impl m = IIL b -> nth_error (c_types s0) (mt_declaring m) = Some ti ->
      fr_assembly fr = ti_assembly ti -> fr_code fr = b_code b ->
      (address (b_code b) (fr_ip fr) /\ (steps m (fr_ip fr) + S depth <= f)%nat \/ len (b_code b) <= fr_ip fr /\ (1 <= f)%nat) ->
      quiet (run f p fr) any.
    Proof.
      induction f as [|f IH]; intros m b ti fr Hm Ei Et Ea Ec H.
      { exfalso. destruct H as [[_ H]|[_ H]]; lia. }
      cbn [run]. destruct H as [[A F]|[L _]].
      2: { intros s Hs. unfold bind. rewrite step_outside; [exact Logic.I|]. now rewrite Ec. }
      destruct (gd_size _ _ _ G m b Hm Ei) as (Hc & _).
      apply q_bind with (onward fr); [apply step_onward; [lia|now rewrite Ec]|].
      intros [fr'|v|m' args r fr'] On.
      - destruct On as ((E1 & E2 & E3 & _) & On). rewrite Ec in On. rewrite Ea in *. rewrite Ec in *.
        apply (IH m b ti); try congruence. destruct On as [On|On].
        + left. split; [eapply at_next; eauto|]. pose proof (gd_next _ _ _ G m b _ _ Hm Ei A On). lia.
        + right. split; [exact On|]. unfold depth in F. lia.
      - now apply q_ret.
      - destruct On as ((E1 & E2 & E3 & _) & On & Cl). rewrite Ec in On, Cl. rewrite Ea in Cl.
        destruct (gd_call _ _ _ G m b ti _ m' Hm Ei Et A Cl) as [Hm' L'].
        apply q_then; [|intro v].
        + apply q_invoke; [exact Hm'|]. intros b' ti' loc Ei' Et'.
          apply (IH m' b' ti' _ Hm' Ei' Et'); try reflexivity. left. cbn [fr_ip]. split; [constructor|lia].
        + apply q_then; [apply q_push_if|intros _]. apply q_then; [apply q_push_if|intros _].
          apply (IH m b ti); try congruence. left. split; [eapply at_next; eauto|].
          pose proof (gd_next _ _ _ G m b _ _ Hm Ei A On). lia.
    Qed.
    Lemma invoke_ends f m args : T m -> (steps m 0%N + S depth <= f)%nat -> quiet (invoke (run f p) m args) any.
    Proof.
      intros Hm F. apply q_invoke; [exact Hm|]. intros b ti loc Ei Et. apply (q_run f m b ti); auto.
      left. cbn [fr_ip]. split; [constructor|exact F].
    Qed.
  End Methods.
End Steps.

(** The loader, along an order on the names of types. *)
From Coq Require Import NArith Arith Lia String List Bool.
From Coq.Strings Require Import Byte.
From Verif Require Import Base Utf BinaryReader Pe Attributes Tables Blob Metadata Runtime Loader ParseSpec BaseFacts ReaderFacts BlobProofs.
From Verif Require Import SpecBytes SpecUtf SpecPe SpecBlob SpecMetadata SpecRuntime SpecBody SpecTypes SpecLoader SpecLoad SpecEnds RuntimeInv LoaderFacts NeverFacts EndsFacts.
Import ListNotations.
Open Scope N_scope.

(** ** Names stay *)

Definition keeps (ts ts' : list type_info) : Prop := forall t n, is_named ts t n -> is_named ts' t n.
Lemma keeps_refl ts : keeps ts ts.
Proof. intros t n H. exact H. Qed.
Lemma keeps_app ts l : keeps ts (ts ++ l).
Proof. intros t n (ti & H & E). exists ti. split; [|exact E]. rewrite nth_error_app1; [exact H|]. exact (nth_lt _ _ _ H). Qed.
Lemma keeps_update ts t f : (forall ti, ti_full_name (f ti) = ti_full_name ti) -> keeps ts (update ts t f).
Proof.
  intros Hf u n (ti & H & E). rewrite <- E. unfold is_named. rewrite nth_update.
  destruct (Nat.eq_dec t u) as [->|N].
  - exists (f ti). rewrite ?Nat.eqb_refl, H. cbn. auto.
  - exists ti. replace (Nat.eqb t u) with false by (symmetry; now apply Nat.eqb_neq). auto.
Qed.

Record still (s s' : vm) : Prop := {
  st_paths : c_paths s' = c_paths s;
  st_assemblies : c_assemblies s' = c_assemblies s;
  st_arena : forall a ai, nth_error (c_arena s) a = Some (Some ai) ->
    exists ai', nth_error (c_arena s') a = Some (Some ai') /\ a_name ai' = a_name ai;
  st_types : keeps (c_types s) (c_types s') }.
Lemma still_refl s : still s s.
Proof. split; auto using keeps_refl. intros a ai H. eauto. Qed.
Lemma still_trans a b c : still a b -> still b c -> still a c.
Proof.
  intros [P1 A1 R1 T1] [P2 A2 R2 T2]. split; try congruence.
  - intros x ai H. destruct (R1 _ _ H) as (ai' & H' & E). destruct (R2 _ _ H') as (ai'' & H'' & E'). exists ai''. split; congruence.
  - intros t n H. apply T2, T1, H.
Qed.

Section Order.
  Variables (top : nat) (o : order).
  Hypothesis O : order_ok top o.

  Definition follows (ts : list type_info) (ti : type_info) : Prop :=
    (forall b, ti_base ti = Some b -> exists n, is_named ts b n /\ may_extend o (ti_full_name ti) n) /\
    (forall i, In i (ti_interfaces ti) -> exists n, is_named ts i n /\ (n = a_value_type -> by_value o (ti_full_name ti) = true)) /\
    (forall f, In f (ti_fields ti) -> exists n, is_named ts (f_type f) n /\ (f_static f = false -> may_hold o (ti_full_name ti) n)).
  Lemma follows_keeps ts ts' ti : keeps ts ts' -> follows ts ti -> follows ts' ti.
  Proof.
    intros K (B & I & F). split; [|split].
    - intros b H. destruct (B b H) as (n & Hn & Hr). eauto.
    - intros i H. destruct (I i H) as (n & Hn & Hr). eauto.
    - intros f H. destruct (F f H) as (n & Hn & Hr). eauto.
  Qed.
  Lemma orderly_follows s t ti : orderly o s -> nth_error (c_types s) t = Some ti -> follows (c_types s) ti.
  Proof. intros [B I F _ _] H. split; [|split]; eauto. Qed.
  Lemma orderly_make s : (forall t ti, nth_error (c_types s) t = Some ti -> follows (c_types s) ti) ->
    (forall n t, map_get bytes_eqb n (c_type_map s) = Some t -> is_named (c_types s) t n) ->
    (forall a, In a (c_assemblies s) -> exists ai, nth_error (c_arena s) a = Some (Some ai)) -> orderly o s.
  Proof.
    intros F N A. split; auto.
    - intros t ti b Ht Hb. destruct (F t ti Ht) as (B & _). eauto.
    - intros t ti b Ht Hb. destruct (F t ti Ht) as (_ & I & _). eauto.
    - intros t ti b Ht Hb. destruct (F t ti Ht) as (_ & _ & I). eauto.
  Qed.

  (** ** Programs *)

  Definition fine {A} (R : vm -> vm -> Prop) (s : vm) (m : M vm A) (Q : A -> vm -> Prop) : Prop := orderly o s ->
    match m s with
    | Ok a s' => orderly o s' /\ R s s' /\ Q a s'
    | Err _ s' => orderly o s' /\ R s s'
    | NoFuel => False
    | _ => True
    end.
  Lemma fn_bind {A B} (R : vm -> vm -> Prop) (T : forall a b c, R a b -> R b c -> R a c) s (m : M vm A) (k : A -> M vm B) Q Q' :
    fine R s m Q -> (forall a s', R s s' -> Q a s' -> fine R s' (k a) Q') -> fine R s (bind m k) Q'.
  Proof.
    intros Hm Hk W. specialize (Hm W). unfold bind. destruct (m s) as [a s1|e s1|w|w|]; auto.
    destruct Hm as (W1 & R1 & Q1). specialize (Hk a s1 R1 Q1 W1). destruct (k a s1) as [b s2|e s2|w|w|]; auto.
    - destruct Hk as (W2 & R2 & Q2). eauto.
    - destruct Hk as (W2 & R2). eauto.
  Qed.
  Lemma fs_bind {A B} s (m : M vm A) (k : A -> M vm B) Q Q' :
    fine still s m Q -> (forall a s', still s s' -> Q a s' -> fine still s' (k a) Q') -> fine still s (bind m k) Q'.
  Proof. apply fn_bind. exact still_trans. Qed.
  Lemma fn_weak {A} R s (m : M vm A) (Q Q' : A -> vm -> Prop) : fine R s m Q -> (forall a s', Q a s' -> Q' a s') -> fine R s m Q'.
  Proof. intros H K W. specialize (H W). destruct (m s); auto. destruct H as (? & ? & ?). auto. Qed.
  Lemma fs_looks {A} s (m : M vm A) (Q : A -> Prop) : (orderly o s -> looks s m Q) -> fine still s m (fun a s' => s' = s /\ Q a).
  Proof.
    intros H W. specialize (H W). unfold looks in H. destruct (m s) as [a s'|e s'|w|w|]; auto.
    - destruct H as [-> H]. auto using still_refl.
    - subst s'. auto using still_refl.
  Qed.
  Definition calm {A} (m : M vm A) : Prop := forall s, fine still s m (fun _ _ => True).
  Lemma cm_bind {A B} (m : M vm A) (k : A -> M vm B) : calm m -> (forall a, calm (k a)) -> calm (bind m k).
  Proof. intros Hm Hk s. eapply fs_bind; [apply Hm|]. intros a s' _ _. apply Hk. Qed.
  Lemma cm_looks {A} (m : M vm A) (Q : vm -> A -> Prop) : (forall s, orderly o s -> looks s m (Q s)) -> calm m.
  Proof. intros H s. eapply fn_weak; [exact (fs_looks s m (Q s) (H s))|]. auto. Qed.
  Lemma cm_fine {A} (m : M vm A) (Q : vm -> A -> vm -> Prop) : (forall s, fine still s m (Q s)) -> calm m.
  Proof. intros H s. eapply fn_weak; [exact (H s)|]. auto. Qed.
  Lemma cm_never {A} (m : M unit A) : never m -> calm (lift m).
  Proof.
    intro H. apply (cm_looks _ (fun _ _ => True)). intros s W. specialize (H tt). unfold looks, lift. destruct (m tt); auto; now elim H.
  Qed.
  Lemma cm_map_err {A} (m : M vm A) e : calm m -> calm (map_err m e).
  Proof. intros H s W. specialize (H s W). unfold map_err. destruct (m s); auto. Qed.
  Lemma cm_unwrap_result {A} (m : M vm A) : calm m -> calm (unwrap_result m).
  Proof. intros H s W. specialize (H s W). unfold unwrap_result. destruct (m s); auto. Qed.
  Lemma cm_ret {A} (a : A) : calm (ret a).
  Proof. apply (cm_looks _ (fun _ _ => True)). intros. now apply lk_ret. Qed.
  Lemma cm_fail {A} e : calm (@fail vm A e).
  Proof. apply (cm_looks _ (fun _ _ => True)). intros. reflexivity. Qed.
  Lemma cm_panic {A} e : calm (@panic vm A e).
  Proof. intros s W. exact Logic.I. Qed.
  Lemma cm_unwrap {A} (r : option A) : calm (unwrap r).
  Proof. destruct r; [apply cm_ret|apply cm_panic]. Qed.
  Lemma cm_ok_or {A} (r : option A) e : calm (ok_or r e).
  Proof. destruct r; [apply cm_ret|apply cm_fail]. Qed.
  Lemma cm_ovf {A} (r : option A) : calm (ovf r).
  Proof. destruct r; [apply cm_ret|apply cm_panic]. Qed.
  Lemma cm_type t : calm (the_type t).
  Proof. apply (cm_looks _ _ (fun s _ => lk_type s t)). Qed.
  Lemma cm_get n : calm (get_type n).
  Proof. apply (cm_looks _ _ (fun s W => lk_get o s n W)). Qed.
  Lemma cm_assembly a : calm (the_assembly a).
  Proof. apply (cm_looks _ (fun _ _ => True)). intros s W. unfold looks, the_assembly. destruct (nth_error _ _) as [[?|]|]; auto. Qed.
  Lemma cm_with_reader {A} r (m : M reader A) : never m -> calm (with_reader r m).
  Proof.
    intro H. apply (cm_looks _ (fun _ _ => True)). intros s W. specialize (H r). unfold looks, with_reader. destruct (m r); auto; now elim H.
  Qed.
  Lemma nv_table_index {A} p (rows : list A) k : never (S := unit) (fun _ => table_index p rows k).
  Proof. intro. unfold table_index. nv. Qed.
  Lemma cm_row {A} p (rows : list A) k : calm (row_at p rows k).
  Proof. apply cm_never, nv_table_index. Qed.
  Lemma cm_map_m {A B} (f : A -> M vm B) l : (forall x, calm (f x)) -> calm (map_m f l).
  Proof. intro H. induction l as [|x l IH]; cbn [map_m]; [apply cm_ret|]. apply cm_bind; [apply H|intro]. apply cm_bind; [exact IH|intro]. apply cm_ret. Qed.
  Lemma cm_iter_m {A} (f : A -> M vm unit) l : (forall x, calm (f x)) -> calm (iter_m f l).
  Proof. intro H. induction l as [|x l IH]; cbn [iter_m]; [apply cm_ret|]. apply cm_bind; [apply H|intro; exact IH]. Qed.
  Lemma cm_range_m (f : N -> M vm unit) : (forall x, calm (f x)) -> forall n i, calm (range_m n i f).
  Proof. intro H. induction n as [|n IH]; intro i; cbn [range_m]; [apply cm_ret|]. apply cm_bind; [apply H|intro; apply IH]. Qed.

  (** ** Changes *)

  Lemma fs_add_type s ti : follows (c_types s) ti -> fine still s (add_type ti) (fun t s' => is_named (c_types s') t (ti_full_name ti)).
  Proof.
    intros F W. unfold add_type. cbv zeta.
    assert (K : keeps (c_types s) (c_types s ++ [ti])) by apply keeps_app.
    assert (Hn : is_named (c_types s ++ [ti]) (List.length (c_types s)) (ti_full_name ti)).
    { exists ti. split; [|reflexivity]. rewrite nth_error_app2, Nat.sub_diag by lia. reflexivity. }
    split; [|split; [split; auto; intros a ai H; eauto|exact Hn]].
    apply orderly_make; cbn [c_types c_type_map c_assemblies c_arena].
    - intros t tj H. apply (follows_keeps _ _ _ K). destruct (Nat.lt_ge_cases t (List.length (c_types s))) as [L|L].
      + rewrite nth_error_app1 in H by exact L. exact (orderly_follows s t tj W H).
      + rewrite nth_error_app2 in H by exact L. destruct (t - List.length (c_types s))%nat as [|[|]]; cbn in H; try discriminate.
        injection H as <-. exact F.
    - intros n t H. destruct (name_eq_dec (ti_full_name ti) n) as [<-|N].
      + rewrite name_get_put_eq in H. injection H as <-. exact Hn.
      + rewrite name_get_put_ne in H by exact N. apply K. exact (od_names _ _ W _ _ H).
    - exact (od_alive _ _ W).
  Qed.
  Lemma fs_modify s t f : (forall ti, ti_full_name (f ti) = ti_full_name ti) ->
    (forall ti, nth_error (c_types s) t = Some ti -> follows (c_types s) ti -> follows (c_types s) (f ti)) ->
    fine still s (modify_type t f) (fun _ _ => True).
  Proof.
    intros Hf F W. unfold modify_type. assert (K := keeps_update (c_types s) t f Hf).
    split; [|split; [split; auto; intros a ai H; eauto|exact Logic.I]].
    apply orderly_make; cbn [set_types c_types c_type_map c_assemblies c_arena].
    - intros u tj H. rewrite nth_update in H. apply (follows_keeps _ _ _ K).
      destruct (nth_error (c_types s) u) as [ti|] eqn:E; [|destruct (Nat.eqb t u); discriminate].
      destruct (Nat.eqb_spec t u) as [->|N]; injection H as <-.
      + apply F; [exact E|]. exact (orderly_follows s u ti W E).
      + exact (orderly_follows s u ti W E).
    - intros n u H. apply K. exact (od_names _ _ W _ _ H).
    - exact (od_alive _ _ W).
  Qed.
  Lemma cm_modify t f : (forall ti, ti_full_name (f ti) = ti_full_name ti) -> (forall ti, ti_base (f ti) = ti_base ti) ->
    (forall ti, ti_interfaces (f ti) = ti_interfaces ti) -> (forall ti, ti_fields (f ti) = ti_fields ti) -> calm (modify_type t f).
  Proof.
    intros H1 H2 H3 H4 s. apply fs_modify; [exact H1|]. intros ti _ (B & I & F). split; [|split].
    - intro b. rewrite H1, H2. apply B.
    - intro b. rewrite H1, H3. apply I.
    - intro b. rewrite H1, H4. apply F.
  Qed.
  Lemma cm_next_id p : calm (next_type_id p).
  Proof.
    intros s W. unfold next_type_id. destruct (u_add _ _ _ _); [|exact Logic.I]. destruct W. split; [split; auto|].
    split; [|exact Logic.I]. split; auto using keeps_refl. intros a ai H. eauto.
  Qed.
  Lemma arena_update (arena : list (option assembly_info)) a f : (forall ai, a_name (f ai) = a_name ai) -> forall b ai,
    nth_error arena b = Some (Some ai) -> exists ai', nth_error (update arena a (option_map f)) b = Some (Some ai') /\ a_name ai' = a_name ai.
  Proof.
    intros Hf b ai H. rewrite nth_update. destruct (Nat.eqb a b); rewrite H; cbn; eauto.
  Qed.
  Lemma cm_modify_assembly a f : (forall ai, a_name (f ai) = a_name ai) -> calm (modify_assembly a f).
  Proof.
    intros Hf s W. unfold modify_assembly. assert (U := arena_update (c_arena s) a f Hf). split; [|split; [|exact Logic.I]].
    - destruct W as [B I F N A]. split; cbn [set_arena c_types c_type_map c_assemblies c_arena]; auto.
      intros b Hb. destruct (A b Hb) as (ai & Ha). destruct (U b ai Ha) as (ai' & H & _). eauto.
    - split; cbn [set_arena c_types c_paths c_assemblies c_arena]; auto using keeps_refl.
  Qed.
  Lemma fs_new_assembly s ai : fine still s (new_assembly ai) (fun a s' => a = List.length (c_arena s) /\ c_assemblies s' = c_assemblies s).
  Proof.
    intros W. unfold new_assembly.
    assert (U : forall b x, nth_error (c_arena s) b = Some x -> nth_error (c_arena s ++ [Some ai]) b = Some x).
    { intros b x H. rewrite nth_error_app1; [exact H|]. exact (nth_lt _ _ _ H). }
    split; [|split; [|auto]].
    - destruct W as [B I F N A]. split; cbn [set_arena c_types c_type_map c_assemblies c_arena]; auto.
      intros b Hb. destruct (A b Hb) as (x & Ha). exists x. auto.
    - split; cbn [set_arena c_types c_paths c_assemblies c_arena]; auto using keeps_refl. intros a x H. eauto.
  Qed.
  Lemma fs_array_of p s t n : is_named (c_types s) t n -> fine still s (array_of p t) (fun u s' => is_named (c_types s') u (vector_of n)).
  Proof.
    intros Hn. unfold array_of. eapply fs_bind; [apply fs_looks; intros; apply lk_type|]. intros e s' _ (-> & He). cbv beta in He. cbv zeta.
    assert (ti_full_name e = n) as En by (destruct Hn as (x & Hx & <-); rewrite He in Hx; now injection Hx as ->). rewrite En.
    eapply fs_bind; [apply fs_looks; intro; now apply lk_get with (o := o)|]. intros r s' _ (-> & Hr). cbv beta in Hr.
    destruct r as [u|].
    { intro W. split; [exact W|split; [apply still_refl|exact (Hr u eq_refl)]]. }
    eapply fs_bind; [apply cm_next_id|]. intros id s1 _ _.
    eapply fs_bind; [apply fs_looks; intro; now apply lk_get with (o := o)|]. intros b s' _ (-> & Hb). cbv beta in Hb.
    apply fs_add_type. split; [|split].
    - cbn [ti_base ti_full_name]. intros u ->. exists an_array_type. split; [now apply Hb|]. apply (oo_vectors _ _ O).
    - intros i [].
    - intros f [].
  Qed.

  (** ** Names in images *)

  Section Image.
    Variables (p : profile) (md : metadata).
    Record sized : Prop := {
      sz_def : len (tb_type_def (m_tables md)) < 2 ^ 32;
      sz_ref : len (tb_type_ref (m_tables md)) < 2 ^ 32;
      sz_field : len (tb_field (m_tables md)) < 2 ^ 32;
      sz_blob : slice_ok (m_blob md) }.
    Hypothesis Z : sized.

    Lemma lk_row {A} s (rows : list A) k : len rows < 2 ^ 32 -> looks s (row_at p rows k) (row_of rows k).
    Proof.
      intro L. unfold looks. destruct (row_at p rows k s) as [d s'|e s'|w|w|] eqn:E; auto.
      - apply row_at_inv in E; [exact E|]. eapply N.lt_trans; [exact L|reflexivity].
      - unfold row_at, lift in E. destruct (table_index p rows k); try discriminate; now injection E as _ <-.
      - unfold row_at, lift in E. pose proof (nv_table_index p rows k tt) as H. cbv beta in H. destruct (table_index p rows k); try discriminate. now elim H.
    Qed.
    Lemma lk_ref_name s h : looks s (type_def_or_ref_name p md h) (fun r => forall n, r = Some n ->
      exists tab k, h = named_ref tab k /\ row_name md tab k n).
    Proof.
      unfold type_def_or_ref_name.
      eapply (lk_bind _ _ _ (fun x => forall n ns, heap_text md (fst x) n -> heap_text md (snd x) ns ->
        exists tab k, h = named_ref tab k /\ row_name md tab k (qualified n ns))).
      - destruct h as [tab k]. cbn [ref_table ref_index].
        destruct tab; try exact Logic.I.
        + eapply lk_bind; [exact (lk_row s _ k (sz_ref Z))|]. intros d [H1 Hd]. apply lk_ret. intros n ns Hn Hns.
          exists InTypeRef, k. split; [reflexivity|]. econstructor; eauto.
        + eapply lk_bind; [exact (lk_row s _ k (sz_def Z))|]. intros d [H1 Hd]. apply lk_ret. intros n ns Hn Hns.
          exists InTypeDef, k. split; [reflexivity|]. econstructor; eauto.
      - intros [x y] H. cbn [fst snd] in H. cbv beta iota. destruct (string_at md x) as [n|] eqn:En; [|apply lk_ret; discriminate].
        destruct (string_at md y) as [ns|] eqn:Es; apply lk_ret; [|discriminate]. intros m Em. injection Em as <-.
        exact (H n ns (string_at_inv _ _ _ En) (string_at_inv _ _ _ Es)).
    Qed.
    Lemma fs_simple s x sm : simple_name sm = Some x -> fine still s (named x) (fun t s' =>
      exists ty n, simple_api sm = api_type ty /\ type_name md ty n /\ is_named (c_types s') t n).
    Proof.
      intro H. eapply fn_weak; [apply fs_looks; intro; now apply lk_named with (o := o)|]. intros t s' (-> & Hn).
      exists (TSimple sm), (bytes_of_string x). split; [reflexivity|]. split; [now constructor|exact Hn].
    Qed.
    Lemma fs_named_ref s h (ev : bool) : fine still s
      (r <- type_def_or_ref_name p md h ;; n <- ok_or r "Unable to locate type" ;; r <- get_type n ;; ok_or r "Unable to locate type")
      (fun t s' => exists tab k n, h = named_ref tab k /\ row_name md tab k n /\ is_named (c_types s') t n).
    Proof.
      eapply fs_bind; [apply fs_looks; intro; apply lk_ref_name|]. intros r s' _ (-> & Hr). cbv beta in Hr.
      eapply fs_bind; [apply fs_looks; intro; apply (lk_ok_or _ _ _ (fun n => r = Some n)); auto|]. intros n s' _ (-> & Hn). cbv beta in Hn.
      eapply fs_bind; [apply fs_looks; intro; now apply lk_get with (o := o)|]. intros u s' _ (-> & Hu). cbv beta in Hu.
      eapply fn_weak; [apply fs_looks; intro; apply (lk_ok_or _ _ _ (fun t => u = Some t)); auto|]. intros t s' (-> & Ht).
      destruct (Hr n Hn) as (tab & k & E & R). exists tab, k, n. auto.
    Qed.
    Lemma fs_element : forall e s, fine still s (type_for_element p md e) (fun t s' =>
      exists ty n, e = api_type ty /\ type_name md ty n /\ is_named (c_types s') t n).
    Proof.
      induction e; intro s; cbn [type_for_element];
        try (intros W; exact Logic.I);
        try solve [match goal with |- fine _ _ (named ?x) _ =>
          first [exact (fs_simple s x PVoid eq_refl) | exact (fs_simple s x PBoolean eq_refl) | exact (fs_simple s x PChar eq_refl)
          | exact (fs_simple s x PI1 eq_refl) | exact (fs_simple s x PU1 eq_refl) | exact (fs_simple s x PI2 eq_refl) | exact (fs_simple s x PU2 eq_refl)
          | exact (fs_simple s x PI4 eq_refl) | exact (fs_simple s x PU4 eq_refl) | exact (fs_simple s x PI8 eq_refl) | exact (fs_simple s x PU8 eq_refl)
          | exact (fs_simple s x PR4 eq_refl) | exact (fs_simple s x PR8 eq_refl) | exact (fs_simple s x PString eq_refl)
          | exact (fs_simple s x PI eq_refl) | exact (fs_simple s x PU eq_refl) | exact (fs_simple s x PObject eq_refl)] end].
      - eapply fn_weak; [exact (fs_named_ref s _ true)|]. intros t s' (tab & k & n & -> & Hn & Ht). exists (TValue tab k), n.
        split; [reflexivity|]. split; [now constructor|exact Ht].
      - eapply fn_weak; [exact (fs_named_ref s _ true)|]. intros t s' (tab & k & n & -> & Hn & Ht). exists (TClass tab k), n.
        split; [reflexivity|]. split; [now constructor|exact Ht].
      - eapply fs_bind; [apply IHe|]. intros t s' _ (ty & n & -> & Hn & Ht).
        eapply fn_weak; [exact (fs_array_of p s' t n Ht)|]. intros u s2 Hu. exists (TSzArray ty), (vector_of n).
        split; [reflexivity|]. split; [now constructor|exact Hu].
      - intro W. split; [exact W|apply still_refl].
    Qed.
    Lemma cm_element e : calm (type_for_element p md e).
    Proof. exact (cm_fine _ _ (fs_element e)). Qed.
  End Image.
End Order.

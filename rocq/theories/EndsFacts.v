(** Along an order on the names of types, loading does not run out of budget and keeps to the order. *)
From Coq Require Import NArith Lia String List Bool.
From Coq.Strings Require Import Byte.
From Verif Require Import Base Utf BinaryReader Pe Attributes Tables Blob Metadata Runtime Loader ParseSpec BaseFacts ReaderFacts BlobProofs.
From Verif Require Import SpecBytes SpecUtf SpecPe SpecBlob SpecMetadata SpecRuntime SpecBody SpecTypes SpecLoader SpecLoad SpecEnds RuntimeInv LoaderFacts NeverFacts.
Import ListNotations.
Open Scope N_scope.

(** ** Readers of signatures *)

Definition ending {A} (m : M reader A) : Prop := forall r, in_bounds r ->
  match m r with Ok _ r' => in_bounds r' | NoFuel => False | _ => True end.
Lemma ending_total {A} (m : M reader A) : total m -> ending m.
Proof.
  intros H r Hr. specialize (H r Hr). destruct (m r) as [a r'|e r'|w|w|]; auto.
  destruct H as (E & _ & L). destruct Hr as [Hs _]. split; rewrite E; auto.
Qed.
Lemma ending_bind {A B} (m : M reader A) (k : A -> M reader B) : ending m -> (forall a, ending (k a)) -> ending (bind m k).
Proof. intros Hm Hk r Hr. unfold bind. specialize (Hm r Hr). destruct (m r) as [a r'|e r'|w|w|]; auto. exact (Hk a r' Hm). Qed.
Lemma ending_field_sig p : ending (read_field_signature p).
Proof.
  unfold read_field_signature. apply ending_bind; [apply ending_total, total_rd; reflexivity|intro b].
  destruct (negb _); [apply ending_total, total_fail|].
  apply ending_bind; [apply ending_total, total_pk; reflexivity|intro c].
  repeat lazymatch goal with
  | |- ending (if ?b then _ else _) => destruct b
  | |- ending (panic _) => intros ? ?; exact Logic.I
  | |- ending _ => apply ending_total; apply total_type
  end.
Qed.

Section Order.
  Variables (top : nat) (o : order).
  Hypothesis O : order_ok top o.

  Record orderly (s : vm) : Prop := {
    od_base : forall t ti b, nth_error (c_types s) t = Some ti -> ti_base ti = Some b ->
      exists n, is_named (c_types s) b n /\ may_extend o (ti_full_name ti) n;
    od_interface : forall t ti i, nth_error (c_types s) t = Some ti -> In i (ti_interfaces ti) ->
      exists n, is_named (c_types s) i n /\ (n = a_value_type -> by_value o (ti_full_name ti) = true);
    od_field : forall t ti f, nth_error (c_types s) t = Some ti -> In f (ti_fields ti) ->
      exists n, is_named (c_types s) (f_type f) n /\ (f_static f = false -> may_hold o (ti_full_name ti) n);
    od_names : forall n t, map_get bytes_eqb n (c_type_map s) = Some t -> is_named (c_types s) t n;
    od_alive : forall a, In a (c_assemblies s) -> exists ai, nth_error (c_arena s) a = Some (Some ai) }.

  (** ** Programs that only look *)

  Definition looks {A} (s : vm) (m : M vm A) (Q : A -> Prop) : Prop :=
    match m s with Ok a s' => s' = s /\ Q a | Err _ s' => s' = s | NoFuel => False | _ => True end.
  Lemma lk_bind {A B} s (m : M vm A) (k : A -> M vm B) Q Q' :
    looks s m Q -> (forall a, Q a -> looks s (k a) Q') -> looks s (bind m k) Q'.
  Proof. unfold looks, bind. intros Hm Hk. destruct (m s) as [a s'|e s'|w|w|]; auto. destruct Hm as [-> Ha]. exact (Hk a Ha). Qed.
  Lemma lk_weak {A} s (m : M vm A) (Q Q' : A -> Prop) : looks s m Q -> (forall a, Q a -> Q' a) -> looks s m Q'.
  Proof. unfold looks. intros H W. destruct (m s); auto. destruct H. auto. Qed.
  Lemma lk_ret {A} s (a : A) (Q : A -> Prop) : Q a -> looks s (ret a) Q.
  Proof. intro H. split; auto. Qed.
  Lemma lk_type s t : looks s (the_type t) (fun ti => nth_error (c_types s) t = Some ti).
  Proof. unfold looks, the_type. destruct (nth_error _ _); auto. Qed.
  Lemma lk_get s n : orderly s -> looks s (get_type n) (fun r => forall t, r = Some t -> is_named (c_types s) t n).
  Proof. intro W. unfold looks, get_type. split; [reflexivity|]. intros t E. exact (od_names s W n t E). Qed.
  Lemma lk_unwrap {A} s (r : option A) (Q : A -> Prop) : (forall a, r = Some a -> Q a) -> looks s (unwrap r) Q.
  Proof. intro H. destruct r; cbn; auto. Qed.
  Lemma lk_ok_or {A} s (r : option A) e (Q : A -> Prop) : (forall a, r = Some a -> Q a) -> looks s (ok_or r e) Q.
  Proof. intro H. destruct r; cbn; auto. Qed.
  Lemma lk_ovf {A} s (r : option A) (Q : A -> Prop) : (forall a, r = Some a -> Q a) -> looks s (ovf r) Q.
  Proof. intro H. destruct r; cbn; auto. Qed.
  Lemma lk_named s x : orderly s -> looks s (named x) (fun t => is_named (c_types s) t (bytes_of_string x)).
  Proof. intro W. unfold named. eapply lk_bind; [now apply lk_get|]. intros r Hr. now apply lk_unwrap. Qed.
  Lemma named_one s t n n' : is_named (c_types s) t n -> is_named (c_types s) t n' -> n = n'.
  Proof. intros (a & Ha & <-) (b & Hb & <-). now rewrite Ha in Hb; injection Hb as ->. Qed.
  Lemma lk_type_eq s t u n n' : is_named (c_types s) t n -> is_named (c_types s) u n' ->
    looks s (type_eq t u) (fun b => if b then n = n' else n <> n').
  Proof.
    intros (a & Ha & <-) (b & Hb & <-). unfold type_eq, looks, bind, the_type. rewrite Ha, Hb. cbn [ret].
    split; [reflexivity|]. destruct (bytes_eqb _ _) eqn:E; [now apply bytes_eqb_spec|]. intro H. apply bytes_eqb_spec in H. congruence.
  Qed.
  Lemma lk_contains s u : is_named (c_types s) u a_value_type -> forall l,
    Forall (fun i => exists n, is_named (c_types s) i n) l ->
    looks s (contains_type l u) (fun b => b = true -> exists i, In i l /\ is_named (c_types s) i a_value_type).
  Proof.
    intro Hu. induction l as [|i l IH]; intro F; cbn [contains_type]; [apply lk_ret; discriminate|].
    apply Forall_cons_iff in F as [(n & Hn) F]. eapply lk_bind; [exact (lk_type_eq _ _ _ _ _ Hn Hu)|]. intros [|] E.
    - apply lk_ret. intros _. subst n. exists i. split; [now left|exact Hn].
    - eapply lk_weak; [exact (IH F)|]. intros b H Hb. destruct (H Hb) as (j & Hj & Ej). exists j. split; [now right|exact Ej].
  Qed.
  Lemma lk_instance s u : orderly s -> is_named (c_types s) u a_value_type -> forall f t n, is_named (c_types s) t n ->
    (height o n < f)%nat -> looks s (instance_of f t u) (fun b => b = true -> by_value o n = true).
  Proof.
    intros W Hu. induction f as [|f IH]; intros t n Hn Hf; [lia|]. cbn [instance_of].
    eapply lk_bind; [exact (lk_type_eq _ _ _ _ _ Hn Hu)|]. intros [|] E.
    { apply lk_ret. intros _. subst n. exact (oo_value _ _ O). }
    eapply lk_bind; [apply lk_type|]. intros ti Ht. cbv beta in Ht.
    assert (ti_full_name ti = n) as En by (destruct Hn as (x & Hx & <-); rewrite Ht in Hx; now injection Hx as ->).
    destruct (ti_base ti) as [b|] eqn:B.
    - destruct (od_base s W _ _ _ Ht B) as (m & Hm & Hh & Hv). rewrite En in Hh, Hv.
      eapply lk_weak; [apply (IH b m Hm); lia|]. auto.
    - eapply lk_weak; [apply (lk_contains s u Hu)|].
      + apply Forall_forall. intros i Hi. destruct (od_interface s W _ _ _ Ht Hi) as (m & Hm & _). eauto.
      + intros r H Hr. destruct (H Hr) as (i & Hi & Ei). destruct (od_interface s W _ _ _ Ht Hi) as (m & Hm & Hv).
        rewrite <- En. apply Hv. exact (named_one _ _ _ _ Hm Ei).
  Qed.
  Lemma lk_reference s f t n : orderly s -> is_named (c_types s) t n -> (height o n < f)%nat ->
    looks s (is_reference_type f t) (fun b => b = false -> by_value o n = true).
  Proof.
    intros W Hn Hf. unfold is_reference_type. eapply lk_bind; [now apply lk_named|]. intros u Hu.
    eapply lk_bind; [now apply (lk_instance s u W Hu f t n)|]. intros b Hb. apply lk_ret. destruct b; cbn; auto; discriminate.
  Qed.
  Lemma lk_sizes s t n : orderly s -> is_named (c_types s) t n -> forall l,
    looks s (try_sizes l t) (fun r => r = None -> forall x k, In (x, k) l -> n <> bytes_of_string x).
  Proof.
    intros W Hn. induction l as [|[x k] l IH]; cbn [try_sizes]; [apply lk_ret; intros _ ? ? []|].
    eapply lk_bind; [now apply lk_named|]. intros u Hu. eapply lk_bind; [exact (lk_type_eq _ _ _ _ _ Hn Hu)|]. intros [|] E.
    - apply lk_ret. discriminate.
    - eapply lk_weak; [exact IH|]. intros r H Hr y j [Hy|Hy]; [injection Hy as <- <-; exact E|exact (H Hr y j Hy)].
  Qed.
  Lemma sizes_primitive x k : In (x, k) widths -> exists k', In (x, k') primitive_sizes.
  Proof. unfold widths, primitive_sizes. cbn. intuition; match goal with H : _ = _ |- _ => injection H as <- <- end; eauto 20. Qed.

  Lemma lk_fold {A} s (g : N -> A -> M vm N) : forall l, Forall (fun x => forall a, looks s (g a x) (fun _ => True)) l ->
    forall a, looks s (fold_m g a l) (fun _ => True).
  Proof.
    induction l as [|x l IH]; intros F a; cbn [fold_m]; [now apply lk_ret|]. apply Forall_cons_iff in F as [Hx F].
    eapply lk_bind; [apply Hx|]. intros b _. now apply IH.
  Qed.
  Lemma lk_size p s : orderly s -> forall f t n, is_named (c_types s) t n ->
    (primitive n /\ (1 <= f)%nat) \/ (height o n + top + 2 <= f)%nat -> looks s (type_size f p t) (fun _ => True).
  Proof.
    intros W. induction f as [|f IH]; intros t n Hn Hf; [lia|]. cbn [type_size].
    eapply lk_bind; [exact (lk_sizes s t n W Hn primitive_sizes)|]. intros [k|] Hk; [now apply lk_ret|].
    destruct Hf as [[(x & k & Hx & ->) _]|Hf].
    { destruct (sizes_primitive _ _ Hx) as [k' Hx']. now elim (Hk eq_refl _ _ Hx'). }
    eapply lk_bind; [apply lk_type|]. intros ti Ht. cbv beta in Ht.
    assert (ti_full_name ti = n) as En by (destruct Hn as (x & Hx & <-); rewrite Ht in Hx; now injection Hx as ->).
    eapply lk_bind.
    { apply lk_fold. apply Forall_forall. intros fi Hi a. apply filter_In in Hi as [Hi Hs].
      destruct (od_field s W _ _ _ Ht Hi) as (m & Hm & Hh). rewrite En in Hh.
      assert (height o m <= top)%nat as Hmt by apply (oo_top _ _ O).
      eapply lk_bind; [apply (lk_reference s f _ m W Hm); lia|]. intros r Hr.
      eapply (lk_bind _ _ _ (fun _ => True)); [|intros; now apply lk_ovf].
      destruct r; [now apply lk_ret|]. apply (IH _ m Hm).
      destruct (Hh (proj1 (negb_true_iff _) Hs) (Hr eq_refl)) as [P|P]; [left; split; [exact P|lia]|right; lia]. }
    intros size _. destruct (ti_base ti) as [b|] eqn:B; [|now apply lk_ret].
    destruct (od_base s W _ _ _ Ht B) as (m & Hm & Hh & Hv). rewrite En in Hh.
    eapply lk_bind; [apply (IH _ m Hm); right; lia|]. intros. now apply lk_ovf.
  Qed.
End Order.

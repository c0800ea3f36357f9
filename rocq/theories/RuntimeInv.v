(** The invariant of the runtime's registries and its preservation by the loader. *)
From Coq Require Import NArith Arith Lia String List Bool.
From Coq.Strings Require Import Byte.
From Verif Require Import Base BaseFacts BinaryReader Pe Attributes Tables Blob Metadata Runtime Loader
  SpecRuntime.
Import ListNotations.
Open Scope N_scope.

(** ** Lists and maps *)

Lemma nth_update {A} (f : A -> A) : forall l i j,
  nth_error (update l i f) j =
  if Nat.eqb i j then option_map f (nth_error l j) else nth_error l j.
Proof.
  induction l as [|x l IH]; intros [|i] [|j]; cbn; try reflexivity; auto;
  try (destruct (Nat.eqb _ _); reflexivity).
Qed.
Lemma length_update {A} (f : A -> A) : forall l i, List.length (update l i f) = List.length l.
Proof. induction l as [|x l IH]; intros [|i]; cbn; congruence. Qed.
Lemma len_update {A} (f : A -> A) l i : len (update l i f) = len l.
Proof. unfold len. now rewrite length_update. Qed.
Global Hint Rewrite @len_update : len.

Lemma name_get_put_eq {V} n (v : V) m : map_get bytes_eqb n (map_put n v m) = Some v.
Proof. unfold map_get, map_put. cbn. now rewrite bytes_eqb_refl. Qed.
Lemma name_get_put_ne {V} n k (v : V) m : k <> n -> map_get bytes_eqb n (map_put k v m) = map_get bytes_eqb n m.
Proof.
  intro H. unfold map_get, map_put. cbn. destruct (bytes_eqb n k) eqn:E; [|reflexivity].
  apply bytes_eqb_spec in E. congruence.
Qed.
Lemma name_eq_dec (a b : name) : {a = b} + {a <> b}.
Proof. apply list_eq_dec. intros x y. destruct (Byte.eqb x y) eqn:E; [left; now apply byte_eqb_spec|right].
  intro H. apply byte_eqb_spec in H. congruence. Qed.

Lemma latest_app ts ti : latest (ts ++ [ti]) (ti_full_name ti) (List.length ts).
Proof.
  split.
  - exists ti. rewrite nth_error_app2, Nat.sub_diag by lia. cbn. auto.
  - intros j tj Hj H.
    assert (L : (j < List.length (ts ++ [ti]))%nat) by (apply nth_error_Some; congruence).
    rewrite app_length in L. cbn in L. lia.
Qed.
Lemma latest_app_other ts ti n i : latest ts n i -> ti_full_name ti <> n -> latest (ts ++ [ti]) n i.
Proof.
  intros [(t & H & Hn) Hl] Hne. split.
  - exists t. split; [|exact Hn]. rewrite nth_error_app1; [exact H|]. apply nth_error_Some. congruence.
  - intros j tj Hj Hk. destruct (lt_dec j (List.length ts)) as [L|L].
    + rewrite nth_error_app1 in Hk by exact L. eauto.
    + rewrite nth_error_app2 in Hk by lia. destruct (j - List.length ts)%nat as [|k] eqn:E; cbn in Hk.
      * injection Hk as <-. exact Hne.
      * destruct k; discriminate.
Qed.
Lemma latest_unique ts n i j : latest ts n i -> latest ts n j -> i = j.
Proof.
  intros [(t & H & Hn) Hl] [(u & H' & Hn') Hl'].
  destruct (lt_eq_lt_dec i j) as [[L| ->]|L]; [|reflexivity|]; exfalso.
  - exact (Hl j u L H' Hn').
  - exact (Hl' i t L H Hn).
Qed.
Lemma latest_valid ts n i : latest ts n i -> (i < List.length ts)%nat.
Proof. intros [(t & H & _) _]. apply nth_error_Some. congruence. Qed.

(** ** Monotonicity of validity *)

Section Mono.
  Variables (nt nt' : nat).
  Hypothesis Ht : (nt <= nt')%nat.
  Lemma v_type_ref_mono t : v_type_ref nt t -> v_type_ref nt' t.
  Proof. unfold v_type_ref. lia. Qed.
  Lemma v_opt_mono o : v_opt nt o -> v_opt nt' o.
  Proof. destruct o; cbn; auto using v_type_ref_mono. Qed.
  Lemma v_field_mono f : v_field nt f -> v_field nt' f.
  Proof. intros [A B]. split; auto using v_type_ref_mono. Qed.
  Lemma v_body_mono b : v_body nt b -> v_body nt' b.
  Proof. intros [A B]. split; [eapply Forall_impl; [|exact A]|eapply Forall_impl; [|exact B]]; cbn; auto using v_type_ref_mono, v_opt_mono. Qed.
  Lemma v_impl_mono i : v_impl nt i -> v_impl nt' i.
  Proof. destruct i; cbn; auto using v_body_mono. Qed.
  Lemma v_method_mono m : v_method nt m -> v_method nt' m.
  Proof. intros (A & B & C & D). repeat split; auto using v_type_ref_mono, v_impl_mono.
    eapply Forall_impl; [|exact C]. cbn. auto using v_type_ref_mono. Qed.
  Lemma v_type_mono na na' ti : (na <= na')%nat -> v_type nt na ti -> v_type nt' na' ti.
  Proof. intros Ha (A & B & C & D & E & F & G). repeat split; try (eapply Forall_impl; [|eassumption]; cbn);
    eauto using v_type_ref_mono, v_field_mono, v_method_mono, v_opt_mono; lia. Qed.
  Lemma v_assembly_mono ai : v_assembly nt ai -> v_assembly nt' ai.
  Proof. intros (A & B & C & D & E & F). repeat split; try (eapply Forall_impl; [|eassumption]; cbn);
    eauto using v_type_ref_mono, v_field_mono, v_method_mono. destruct (a_entry ai); auto using v_method_mono. Qed.
  Lemma v_primitives_mono q : v_primitives nt q -> v_primitives nt' q.
  Proof. unfold v_primitives. intuition (eauto using v_type_ref_mono). Qed.
End Mono.

(** ** Relations between runtime states *)

(** Types are added, and nothing else happens. *)
Record adds (s s' : vm) : Prop := {
  ad_paths : c_paths s' = c_paths s;
  ad_output : c_output s' = c_output s;
  ad_prims : c_primitives s' = c_primitives s;
  ad_loaded : c_assemblies s' = c_assemblies s;
  ad_types : exists l, c_types s' = c_types s ++ l;
  ad_arena : c_arena s' = c_arena s }.

(** Only new types with new names have been registered. *)
Record appends (s s' : vm) : Prop := {
  ap_paths : c_paths s' = c_paths s;
  ap_output : c_output s' = c_output s;
  ap_prims : c_primitives s' = c_primitives s;
  ap_loaded : c_assemblies s' = c_assemblies s;
  ap_types : exists l, c_types s' = c_types s ++ l;
  ap_arena : c_arena s' = c_arena s;
  ap_names : forall i ti j tj, nth_error (c_types s) i = Some ti -> (List.length (c_types s) <= j)%nat ->
    nth_error (c_types s') j = Some tj -> ti_full_name tj <> ti_full_name ti }.

(** While assembly [a0] is being loaded: the types below [n0] and the other assemblies are left
    alone, and no type changes its identity. *)
Record within (n0 : nat) (a0 : aref) (s s' : vm) : Prop := {
  wi_paths : c_paths s' = c_paths s;
  wi_output : c_output s' = c_output s;
  wi_prims : c_primitives s' = c_primitives s;
  wi_loaded : c_assemblies s' = c_assemblies s;
  wi_count : (List.length (c_types s) <= List.length (c_types s'))%nat;
  wi_types : forall i ti, nth_error (c_types s) i = Some ti ->
             exists ti', nth_error (c_types s') i = Some ti' /\ same_identity ti ti';
  wi_below : forall i, (i < n0)%nat -> nth_error (c_types s') i = nth_error (c_types s) i;
  wi_arena : List.length (c_arena s') = List.length (c_arena s);
  wi_others : forall a, a <> a0 -> nth_error (c_arena s') a = nth_error (c_arena s) a;
  wi_alive : alive s a0 -> alive s' a0 }.

Lemma same_identity_refl t : same_identity t t.
Proof. repeat split. Qed.
Lemma same_identity_trans a b c : same_identity a b -> same_identity b c -> same_identity a c.
Proof. unfold same_identity. intuition congruence. Qed.

Lemma appends_refl s : appends s s.
Proof.
  split; try reflexivity; [exists []; now rewrite app_nil_r|]. intros i ti j tj _ Hj E.
  assert (j < List.length (c_types s))%nat by (apply nth_error_Some; congruence). lia.
Qed.
Lemma appends_trans a b c : appends a b -> appends b c -> appends a c.
Proof.
  intros [A1 A2 A3 A4 [l A5] A6 A7] [B1 B2 B3 B4 [l' B5] B6 B7]. split; try congruence.
  - exists (l ++ l'). rewrite B5, A5. now rewrite app_assoc.
  - intros i ti j tj Hi Hj E.
    assert (Li : (i < List.length (c_types a))%nat) by (apply nth_error_Some; congruence).
    assert (Hi' : nth_error (c_types b) i = Some ti) by (rewrite A5, nth_error_app1; assumption).
    destruct (Nat.lt_ge_cases j (List.length (c_types b))) as [L|G].
    + apply (A7 i ti j tj Hi Hj). rewrite B5, nth_error_app1 in E by exact L. exact E.
    + exact (B7 i ti j tj Hi' G E).
Qed.
Lemma appends_count s s' : appends s s' -> (List.length (c_types s) <= List.length (c_types s'))%nat.
Proof. intros []. destruct ap_types0 as [l ->]. rewrite app_length. lia. Qed.
Lemma appends_nth s s' i : appends s s' -> (i < List.length (c_types s))%nat ->
  nth_error (c_types s') i = nth_error (c_types s) i.
Proof. intros [] H. destruct ap_types0 as [l ->]. now rewrite nth_error_app1. Qed.
Lemma nth_lt {A} (l : list A) i x : nth_error l i = Some x -> (i < List.length l)%nat.
Proof. intro H. apply nth_error_Some. congruence. Qed.
Lemma nth_some {A} (l : list A) i : (i < List.length l)%nat -> exists x, nth_error l i = Some x.
Proof. intro H. destruct (nth_error l i) eqn:E; eauto. apply nth_error_None in E. lia. Qed.

Lemma adds_within n0 a0 s s' : (n0 <= List.length (c_types s))%nat -> adds s s' -> within n0 a0 s s'.
Proof.
  intros Hn [A1 A2 A3 A4 [l A5] A6].
  split; try congruence; auto.
  - rewrite A5, app_length. lia.
  - intros i ti H. exists ti. split; [|apply same_identity_refl].
    rewrite A5. rewrite nth_error_app1; [exact H|]. now apply nth_lt in H.
  - intros i Hi. rewrite A5. rewrite nth_error_app1; [reflexivity|lia].
  - unfold alive. now rewrite A6.
Qed.
Lemma appends_within n0 a0 s s' : (n0 <= List.length (c_types s))%nat -> appends s s' -> within n0 a0 s s'.
Proof. intros Hn []. apply adds_within; [exact Hn|]. split; assumption. Qed.
Lemma within_refl n0 a0 s : within n0 a0 s s.
Proof. split; auto. intros i ti H. exists ti. split; [exact H|apply same_identity_refl]. Qed.
Lemma within_trans n0 a0 a b c : within n0 a0 a b -> within n0 a0 b c -> within n0 a0 a c.
Proof.
  intros [] []. split; try congruence; try lia; auto.
  - intros i ti H. destruct (wi_types0 _ _ H) as (u & Hu & Iu). destruct (wi_types1 _ _ Hu) as (w & Hw & Iw).
    exists w. eauto using same_identity_trans.
  - intros i Hi. now rewrite wi_below1, wi_below0.
  - intros x Hx. now rewrite wi_others1, wi_others0.
Qed.
Lemma evolves_refl s : evolves s s.
Proof. split; try reflexivity; exists []; now rewrite app_nil_r. Qed.
Lemma evolves_trans a b c : evolves a b -> evolves b c -> evolves a c.
Proof.
  intros [? ? ? [l1 L] [l2 T] [l3 A]] [? ? ? [k1 L'] [k2 T'] [k3 A']]. split; try congruence.
  - exists (l1 ++ k1). now rewrite L', L, app_assoc.
  - exists (l2 ++ k2). now rewrite T', T, app_assoc.
  - exists (l3 ++ k3). now rewrite A', A, app_assoc.
Qed.
Lemma appends_evolves s s' : appends s s' -> evolves s s'.
Proof. intros []. split; try assumption; exists []; rewrite app_nil_r; assumption. Qed.

(** ** Preservation, relative to a relation *)

Section Pres.
  Variable p : profile.
  Variable R : vm -> vm -> Prop.
  Hypothesis R_refl : forall s, R s s.
  Hypothesis R_trans : forall a b c, R a b -> R b c -> R a c.

  (** Run from [s], [m] keeps the runtime consistent and related by [R], and its result
      satisfies [Q]. *)
  Definition pres {A} (s : vm) (m : M vm A) (Q : A -> vm -> Prop) : Prop :=
    consistent p s ->
    match m s with
    | Ok a s' => consistent p s' /\ R s s' /\ Q a s'
    | Err _ s' => consistent p s' /\ R s s'
    | _ => True
    end.

  Lemma pres_ret {A} s (a : A) (Q : A -> vm -> Prop) : Q a s -> pres s (ret a) Q.
  Proof. intros H W. cbn. auto. Qed.
  Lemma pres_fail {A} s e (Q : A -> vm -> Prop) : pres s (fail e) Q.
  Proof. intros W. cbn. auto. Qed.
  Lemma pres_panic {A} s e (Q : A -> vm -> Prop) : pres s (panic e) Q.
  Proof. intros W. cbn. auto. Qed.
  Lemma pres_nofuel {A} s (Q : A -> vm -> Prop) : pres s nofuel Q.
  Proof. intros W. cbn. auto. Qed.
  Lemma pres_bind {A B} s (m : M vm A) (k : A -> M vm B) (Q : A -> vm -> Prop) (Q' : B -> vm -> Prop) :
    pres s m Q ->
    (forall a s', consistent p s' -> R s s' -> Q a s' -> pres s' (k a) Q') ->
    pres s (bind m k) Q'.
  Proof.
    intros Hm Hk W. specialize (Hm W). unfold bind. destruct (m s) as [a s1|e s1|w|w|]; auto.
    destruct Hm as (W1 & R1 & Q1). specialize (Hk a s1 W1 R1 Q1 W1).
    destruct (k a s1) as [b s2|e s2|w|w|]; auto.
    - destruct Hk as (W2 & R2 & Q2). eauto.
    - destruct Hk as (W2 & R2). eauto.
  Qed.
  Lemma pres_weaken {A} s (m : M vm A) (Q Q' : A -> vm -> Prop) :
    pres s m Q -> (forall a s', consistent p s' -> R s s' -> Q a s' -> Q' a s') -> pres s m Q'.
  Proof. intros Hm H W. specialize (Hm W). destruct (m s); auto. destruct Hm as (? & ? & ?). auto. Qed.
  Lemma pres_lift {A} s (m : M unit A) : pres s (lift m) (fun a s' => s' = s).
  Proof. intros W. unfold lift. destruct (m tt); auto. Qed.
  Lemma pres_with_reader {A} s r (m : M reader A) : pres s (with_reader r m) (fun a s' => s' = s).
  Proof. intros W. unfold with_reader. destruct (m r); auto. Qed.
  Lemma pres_ok_or {A} s (o : option A) e (Q : A -> vm -> Prop) :
    (forall a, o = Some a -> Q a s) -> pres s (ok_or o e) Q.
  Proof. intros H. destruct o; cbn; [apply pres_ret; auto|apply pres_fail]. Qed.
  Lemma pres_unwrap {A} s (o : option A) (Q : A -> vm -> Prop) :
    (forall a, o = Some a -> Q a s) -> pres s (unwrap o) Q.
  Proof. intros H. destruct o; cbn; [apply pres_ret; auto|apply pres_panic]. Qed.
  Lemma pres_ovf {A} s (o : option A) : pres s (ovf o) (fun _ s' => s' = s).
  Proof. destruct o; cbn; [apply pres_ret; auto|apply pres_panic]. Qed.
  Lemma pres_map_err {A} s (m : M vm A) e Q : pres s m Q -> pres s (map_err m e) Q.
  Proof. intros H W. specialize (H W). unfold map_err. destruct (m s); auto. Qed.
  Lemma pres_unwrap_result {A} s (m : M vm A) Q : pres s m Q -> pres s (unwrap_result m) Q.
  Proof. intros H W. specialize (H W). unfold unwrap_result. destruct (m s); auto. Qed.
  Lemma pres_row_at {A} s (rows : list A) h : pres s (row_at p rows h) (fun a s' => s' = s).
  Proof. apply pres_lift. Qed.

  Lemma pres_the_type s t : pres s (the_type t)
    (fun ti s' => s' = s /\ nth_error (c_types s) t = Some ti /\
                  v_type (List.length (c_types s)) (List.length (c_arena s)) ti).
  Proof.
    intros W. unfold the_type. destruct (nth_error (c_types s) t) eqn:E; auto.
    split; [exact W|]. split; [auto|]. split; [reflexivity|]. split; [reflexivity|].
    pose proof (types_ok _ _ W) as F. rewrite Forall_forall in F.
    apply F. eapply nth_error_In; eauto.
  Qed.
  Lemma pres_the_assembly s a : pres s (the_assembly a)
    (fun ai s' => s' = s /\ nth_error (c_arena s) a = Some (Some ai) /\
                  v_assembly (List.length (c_types s)) ai).
  Proof.
    intros W. unfold the_assembly. destruct (nth_error (c_arena s) a) as [[ai|]|] eqn:E; auto.
    split; [exact W|]. split; [auto|]. split; [reflexivity|]. split; [reflexivity|].
    eapply (arena_ok _ _ W); eauto.
  Qed.
  Lemma pres_get_type s n : pres s (get_type n)
    (fun o s' => s' = s /\ match o with
                           | Some t => latest (c_types s) n t
                           | None => unnamed (c_types s) n
                           end).
  Proof.
    intros W. unfold get_type. cbn. split; [exact W|]. split; [auto|]. split; [reflexivity|].
    exact (map_ok _ _ W n).
  Qed.
  Lemma pres_named s x : pres s (named x)
    (fun t s' => s' = s /\ latest (c_types s) (bytes_of_string x) t).
  Proof.
    eapply pres_bind; [apply pres_get_type|]. intros o s' W _ [-> H].
    apply pres_unwrap. intros a ->. auto.
  Qed.

  (** Loops. *)
  Lemma pres_map_m {A B} (f : A -> M vm B) (Q : B -> vm -> Prop) (I : vm -> Prop) :
    (forall a s s', Q a s -> R s s' -> Q a s') ->
    (forall s s', I s -> R s s' -> I s') ->
    (forall x s, I s -> pres s (f x) Q) ->
    forall l s, I s -> pres s (map_m f l) (fun ys s' => Forall (fun y => Q y s') ys).
  Proof.
    intros HQ HI Hf. induction l as [|x l IH]; intros s Hs; cbn [map_m].
    - apply pres_ret. constructor.
    - eapply pres_bind; [apply Hf, Hs|]. intros y s1 W1 R1 Q1.
      eapply pres_bind; [apply IH; eauto|]. intros ys s2 W2 R2 Q2. apply pres_ret. constructor; eauto.
  Qed.
  Lemma pres_iter_m {A} (f : A -> M vm unit) (I : vm -> Prop) :
    (forall s s', I s -> R s s' -> I s') ->
    (forall x s, I s -> pres s (f x) (fun _ _ => True)) ->
    forall l s, I s -> pres s (iter_m f l) (fun _ _ => True).
  Proof.
    intros HI Hf. induction l as [|x l IH]; intros s Hs; cbn [iter_m].
    - apply pres_ret. trivial.
    - eapply pres_bind; [apply Hf, Hs|]. intros y s1 W1 R1 Q1. apply IH. eauto.
  Qed.
  Lemma pres_range_m (f : N -> M vm unit) (I : vm -> Prop) :
    (forall s s', I s -> R s s' -> I s') ->
    (forall i s, I s -> pres s (f i) (fun _ _ => True)) ->
    forall n i s, I s -> pres s (range_m n i f) (fun _ _ => True).
  Proof.
    intros HI Hf. induction n as [|n IH]; intros i s Hs; cbn [range_m].
    - apply pres_ret. trivial.
    - eapply pres_bind; [apply Hf, Hs|]. intros y s1 W1 R1 Q1. apply IH. eauto.
  Qed.
  Lemma pres_fold_m {A B} (f : A -> B -> M vm A) :
    forall l, (forall a x s, In x l -> pres s (f a x) (fun _ s' => s' = s)) ->
    forall a s, pres s (fold_m f a l) (fun _ s' => s' = s).
  Proof.
    induction l as [|x l IH]; intros Hf a s; cbn [fold_m].
    - now apply pres_ret.
    - eapply pres_bind; [apply Hf; cbn; auto|]. intros y s1 W1 R1 ->. apply IH.
      intros. apply Hf. cbn. auto.
  Qed.
End Pres.

Lemma pres_rel {A} p (R R' : vm -> vm -> Prop) s (m : M vm A) Q :
  pres p R s m Q -> (forall s', R s s' -> R' s s') -> pres p R' s m Q.
Proof. intros H HR W. specialize (H W). destruct (m s); auto; intuition. Qed.

(** ** Registering a type *)

Lemma u_add_id p n x : u_add p 32 (N.of_nat n mod 2 ^ 32) 1 = Some x -> x = N.of_nat (S n) mod 2 ^ 32.
Proof.
  unfold u_add. intro H. replace (N.of_nat (S n)) with (N.of_nat n + 1) by lia.
  destruct (_ <? _) eqn:E.
  - injection H as <-. apply N.ltb_lt in E. rewrite <- N.add_mod_idemp_l by (intro; discriminate).
    symmetry. now apply N.mod_small.
  - destruct p; [discriminate|]. injection H as <-. now rewrite N.add_mod_idemp_l by (intro; discriminate).
Qed.
Lemma u_add_debug n x : n < 2 ^ 32 -> u_add Debug 32 n 1 = Some x -> n + 1 < 2 ^ 32.
Proof. unfold u_add. intros H E. destruct (_ <? _) eqn:F; [|discriminate]. now apply N.ltb_lt. Qed.

Lemma length_snoc {A} (l : list A) x : List.length (l ++ [x]) = S (List.length l).
Proof. rewrite app_length. cbn. lia. Qed.

Lemma consistent_add p s ti next :
  consistent p s -> u_add p 32 (c_next_id s) 1 = Some next -> ti_id ti = c_next_id s ->
  v_type (S (List.length (c_types s))) (List.length (c_arena s)) ti ->
  consistent p (mkVm (c_paths s) (c_assemblies s) (c_arena s) (c_types s ++ [ti])
    (map_put (ti_full_name ti) (List.length (c_types s)) (c_type_map s)) next (c_primitives s) (c_output s)).
Proof.
  intros [] Hnext Hid Hv. split; cbn [c_types c_next_id c_type_map c_arena c_assemblies c_primitives].
  - intros i t Hi. destruct (lt_dec i (List.length (c_types s))) as [L|L].
    + rewrite nth_error_app1 in Hi by exact L. auto.
    + rewrite nth_error_app2 in Hi by lia. destruct (i - List.length (c_types s))%nat as [|k] eqn:E; cbn in Hi;
      [|destruct k; discriminate]. injection Hi as <-. rewrite Hid, next_ok. unfold len.
      now replace i with (List.length (c_types s)) by lia.
  - rewrite next_ok in Hnext. apply u_add_id in Hnext. rewrite Hnext. unfold len. now rewrite length_snoc.
  - intros ->. specialize (bound_ok eq_refl). rewrite next_ok, N.mod_small in Hnext by exact bound_ok.
    apply u_add_debug in Hnext; [|exact bound_ok]. slen. lia.
  - intro n. destruct (name_eq_dec (ti_full_name ti) n) as [<-|Hne].
    + rewrite name_get_put_eq. apply latest_app.
    + rewrite name_get_put_ne by exact Hne. specialize (map_ok n). destruct (map_get bytes_eqb n (c_type_map s)).
      * now apply latest_app_other.
      * intros t Ht. apply in_app_or in Ht as [Ht|[<-|[]]]; auto.
  - rewrite length_snoc. apply Forall_app. split.
    + eapply Forall_impl; [|exact types_ok]. intros t. apply v_type_mono; lia.
    + constructor; [exact Hv|constructor].
  - intros a ai Ha. rewrite length_snoc. eapply v_assembly_mono; [|eauto]. lia.
  - exact loaded_ok.
  - rewrite length_snoc. destruct (c_primitives s); [|exact I]. eapply v_primitives_mono; [|exact prims_ok]. lia.
Qed.

(** Reserving an identifier and registering a type under it. *)
Lemma pres_register p s (mk : N -> vm -> type_info) (R : vm -> vm -> Prop) (k : N -> M vm tref) :
  (forall id s', adds s s' -> c_types s' = c_types s ++ [mk id s] -> R s s') ->
  (forall id, k id = fun s' => add_type (mk id s') s') ->
  (forall id n, mk id (set_next_id s n) = mk id s) ->
  (forall id, ti_id (mk id s) = id) ->
  (forall id, v_type (S (List.length (c_types s))) (List.length (c_arena s)) (mk id s)) ->
  pres p R s (bind (next_type_id p) k)
    (fun t s' => t = List.length (c_types s) /\ exists id, c_types s' = c_types s ++ [mk id s]).
Proof.
  intros HR Hk Hmk Hid Hv W. unfold next_type_id, bind. destruct (u_add p 32 (c_next_id s) 1) as [n|] eqn:E; [|exact I].
  rewrite Hk. unfold add_type. rewrite Hmk. cbn.
  set (s1 := mkVm _ _ _ _ _ _ _ _).
  assert (A : adds s s1). { subst s1. split; try reflexivity. cbn. eauto. }
  split.
  - exact (consistent_add p s (mk (c_next_id s) s) n W E (Hid _) (Hv _)).
  - split; [eapply HR; [exact A|]; subst s1; cbn; reflexivity|]. split; [reflexivity|]. subst s1. cbn. eauto.
Qed.

Ltac pr := solve [exact appends_refl | exact appends_trans | apply within_refl | apply within_trans | exact evolves_refl | exact evolves_trans].

(** ** Array types and element types *)

Definition v_ref (s : vm) (t : tref) : Prop := v_type_ref (List.length (c_types s)) t.

Lemma v_ref_appends s s' t : v_ref s t -> appends s s' -> v_ref s' t.
Proof. intros H A. apply appends_count in A. unfold v_ref, v_type_ref in *. lia. Qed.

Lemma array_of_pres p s t : pres p appends s (array_of p t) (fun u s' => v_ref s' u).
Proof.
  unfold array_of. eapply pres_bind; [pr|apply pres_the_type; pr|].
  intros e s1 W1 _ (-> & Hn & Hv).
  eapply pres_bind; [pr|apply pres_get_type; pr|].
  intros [u|] s1 _ _ (-> & Hu).
  - apply pres_ret; [exact appends_refl|]. exact (latest_valid _ _ _ Hu).
  - eapply pres_weaken.
    + refine (pres_register p s (fun id s' => mkType (ti_assembly e) id (ti_name e ++ bytes_of_string "[]") (ti_namespace e)
        (ti_full_name e ++ bytes_of_string "[]") (Some KArray) false
        (map_get bytes_eqb (bytes_of_string "System.Array") (c_type_map s')) [] [] [] [] []) appends _ _ _ _ _ _).
      * intros id s' [] Et. split; auto. intros i ti j tj Hi Hj Ej. rewrite Et, nth_error_app2 in Ej by exact Hj.
        destruct (j - List.length (c_types s))%nat as [|q]; [|destruct q; discriminate]. cbn in Ej. injection Ej as <-.
        cbn [ti_full_name]. intro X. apply (Hu ti); [exact (nth_error_In _ _ Hi)|exact (eq_sym X)].
      * intro id. reflexivity.
      * intros id n. reflexivity.
      * reflexivity.
      * intro id. unfold v_type. cbn [ti_assembly ti_base ti_fields ti_methods ti_interfaces ti_field_map ti_method_map].
        destruct Hv as (Ha & _). repeat split; auto.
        pose proof (map_ok _ _ W1 (bytes_of_string "System.Array")) as M.
        destruct (map_get bytes_eqb (bytes_of_string "System.Array") (c_type_map s)); cbn; [|exact I].
        apply latest_valid in M. unfold v_type_ref. lia.
    + cbv beta. intros a s' W' A (-> & id & E). unfold v_ref, v_type_ref. rewrite E, length_snoc. lia.
Qed.

Lemma type_def_or_ref_name_state p md h s : match type_def_or_ref_name p md h s with
  | Ok _ s' => s' = s | Err _ s' => s' = s | _ => True end.
Proof.
  unfold type_def_or_ref_name, bind, lift, ret, panic.
  destruct (ref_table h); try exact I; destruct (table_index _ _ _); try exact I; try reflexivity;
  (destruct (string_at md _); [|reflexivity]); destruct (string_at md _); reflexivity.
Qed.


Lemma type_for_element_pres p md : forall e s, pres p appends s (type_for_element p md e) (fun t s' => v_ref s' t).
Proof.
  assert (HN : forall x s, pres p appends s (named x) (fun t s' => v_ref s' t)).
  { intros x s. eapply pres_weaken; [apply pres_named; pr|]. intros a s' _ _ [-> H]. exact (latest_valid _ _ _ H). }
  assert (HC : forall h s, pres p appends s
      (bind (type_def_or_ref_name p md h) (fun o => bind (ok_or o "Unable to locate type") (fun n =>
         bind (get_type n) (fun o => ok_or o "Unable to locate type")))) (fun t s' => v_ref s' t)).
  { intros h s. eapply pres_bind with (Q := fun o s' => s' = s); try pr.
    - intros W. pose proof (type_def_or_ref_name_state p md h s) as H.
      destruct (type_def_or_ref_name p md h s); auto; subst; auto using appends_refl.
    - intros o s' W _ ->. eapply pres_bind with (Q := fun n s' => s' = s); try pr.
      + apply pres_ok_or; try pr. auto.
      + intros n s' _ _ ->. eapply pres_bind; try pr; [apply pres_get_type; pr|].
        intros u s' _ _ [-> Hu]. apply pres_ok_or; try pr. intros a ->. exact (latest_valid _ _ _ Hu). }
  induction e as [| | | | | | | | | | | | | |e IH|e IH|h|h|n|e IH sh|e IH args| | | | | |e IH|n|]; intro s;
    cbn [type_for_element]; try apply HN; try apply HC; try apply pres_panic; try (apply pres_fail; pr).
  eapply pres_bind; try pr; [apply IH|]. intros t s' _ _ _. apply array_of_pres.
Qed.

(** ** Method bodies, fields and methods *)

Lemma v_refs_appends s s' l : Forall (v_ref s) l -> appends s s' -> Forall (v_ref s') l.
Proof. intros H A. eapply Forall_impl; [|exact H]. intros t Ht. eapply v_ref_appends; eauto. Qed.

Lemma read_locals_pres p md : forall n r s, pres p appends s (read_locals p md n r) (fun ts s' => Forall (v_ref s') ts).
Proof.
  induction n as [|n IH]; intros r s; cbn [read_locals].
  - apply pres_ret; [pr|constructor].
  - eapply pres_bind; [pr|apply pres_map_err, pres_with_reader; pr|].
    intros [e r'] s' W _ ->. eapply pres_bind; [pr|apply type_for_element_pres|]. intros t s1 W1 A1 V1.
    eapply pres_bind; [pr|apply IH|]. intros ts s2 W2 A2 V2. apply pres_ret; [pr|].
    constructor; [exact (v_ref_appends _ _ _ V1 A2)|exact V2].
Qed.

Lemma load_locals_pres p md tok s : pres p appends s (load_locals p md tok) (fun ts s' => Forall (v_ref s') ts).
Proof.
  unfold load_locals. destruct (_ =? _); [apply pres_ret; [pr|constructor]|].
  eapply pres_bind; [pr|apply pres_row_at; pr|]. intros row s' W _ ->.
  eapply pres_bind; [pr|apply pres_map_err, pres_lift; pr|]. intros r s' _ _ ->.
  eapply pres_bind; [pr|apply pres_map_err, pres_with_reader; pr|]. intros [b r'] s' _ _ ->.
  destruct (negb _); [apply pres_fail; pr|].
  eapply pres_bind; [pr|apply pres_map_err, pres_with_reader; pr|]. intros [c r''] s' _ _ ->.
  apply read_locals_pres.
Qed.

Lemma catch_type_pres p md tok s : pres p appends s (catch_type p md tok) (fun t s' => s' = s /\ v_ref s' t).
Proof.
  unfold catch_type. eapply pres_bind with (Q := fun _ s' => s' = s); [pr| |].
  - destruct (_ =? _); [|destruct (_ =? _); [|apply pres_fail; pr]].
    + eapply pres_bind; [pr|apply pres_row_at; pr|]. intros d s' _ _ ->. now apply pres_ret; [pr|].
    + eapply pres_bind; [pr|apply pres_row_at; pr|]. intros d s' _ _ ->. now apply pres_ret; [pr|].
  - intros [nh nsh] s' _ _ ->. eapply pres_bind with (Q := fun _ s' => s' = s); [pr|apply pres_ok_or; [pr|auto]|].
    intros n s' _ _ ->. eapply pres_bind with (Q := fun _ s' => s' = s); [pr|apply pres_ok_or; [pr|auto]|].
    intros ns s' _ _ ->. eapply pres_bind; [pr|apply pres_get_type; pr|]. intros o s' _ _ [-> H].
    apply pres_ok_or; [pr|]. intros t ->. split; [reflexivity|]. exact (latest_valid _ _ _ H).
Qed.

Lemma new_clause_pres p md k a b c d e s : pres p appends s (new_clause p md k a b c d e)
  (fun cl s' => v_opt (List.length (c_types s')) (cl_catch cl)).
Proof.
  unfold new_clause. eapply pres_bind with (Q := fun o s' => v_opt (List.length (c_types s')) o); [pr| |].
  - destruct k; try (apply pres_ret; [pr|exact I]).
    eapply pres_bind; [pr|apply catch_type_pres|]. intros t s' _ _ [-> H]. apply pres_ret; [pr|exact H].
  - intros o s' _ _ H. apply pres_ret; [pr|exact H].
Qed.

Lemma v_opt_appends s s' o : v_opt (List.length (c_types s)) o -> appends s s' -> v_opt (List.length (c_types s')) o.
Proof. intros H A. eapply v_opt_mono; [apply appends_count; eauto|exact H]. Qed.

Lemma read_clauses_pres p md w1 w2 : forall n r s, pres p appends s (read_clauses p md w1 w2 n r)
  (fun cs s' => Forall (fun c => v_opt (List.length (c_types s')) (cl_catch c)) cs).
Proof.
  induction n as [|n IH]; intros r s; cbn [read_clauses].
  - apply pres_ret; [pr|constructor].
  - eapply pres_bind; [pr|apply pres_with_reader; pr|]. intros [code r1] s' _ _ ->.
    eapply pres_bind with (Q := fun _ s' => s' = s); [pr|apply pres_ok_or; [pr|auto]|]. intros k s' _ _ ->.
    do 5 (eapply pres_bind; [pr|apply pres_with_reader; pr|]; intros [? ?] s' _ _ ->).
    eapply pres_bind; [pr|apply new_clause_pres|]. intros c s1 W1 A1 V1.
    eapply pres_bind; [pr|apply IH|]. intros cs s2 W2 A2 V2. apply pres_ret; [pr|].
    constructor; [exact (v_opt_appends _ _ _ V1 A2)|exact V2].
Qed.

Lemma read_section_pres p md r s : pres p appends s (read_section p md r)
  (fun cs s' => Forall (fun c => v_opt (List.length (c_types s')) (cl_catch c)) cs).
Proof.
  unfold read_section. eapply pres_bind; [pr|apply pres_with_reader; pr|]. intros [? ?] s' _ _ ->.
  eapply pres_bind; [pr|apply pres_with_reader; pr|]. intros [? ?] s' _ _ ->.
  destruct (negb _); [apply pres_fail; pr|].
  eapply pres_bind; [pr|apply pres_with_reader; pr|]. intros [? ?] s' _ _ ->.
  destruct (has _ _); (eapply pres_bind; [pr|apply pres_with_reader; pr|]; intros [? ?] s' _ _ ->; apply read_clauses_pres).
Qed.

Lemma load_body_pres p md rva s : pres p appends s (load_body p md rva) (fun b s' => v_body (List.length (c_types s')) b).
Proof.
  unfold load_body. eapply pres_bind; [pr|apply pres_map_err, pres_lift; pr|]. intros off s' _ _ ->.
  eapply pres_bind; [pr|apply pres_lift; pr|]. intros d s' _ _ ->.
  eapply pres_bind; [pr|apply pres_with_reader; pr|]. intros [b r] s' _ _ ->.
  destruct (N.land b 3) as [|[[]|[]|]]; try (apply pres_fail; pr).
  - do 4 (eapply pres_bind; [pr|apply pres_with_reader; pr|]; intros [? ?] s' _ _ ->).
    eapply pres_bind; [pr|apply load_locals_pres|]. intros ts s1 W1 A1 V1.
    eapply pres_bind; [pr|apply pres_with_reader; pr|]; intros [? ?] s' _ _ ->.
    eapply pres_bind with (Q := fun cs s' => Forall (fun c => v_opt (List.length (c_types s')) (cl_catch c)) cs); [pr| |].
    + destruct (has b 8); [apply read_section_pres|apply pres_ret; [pr|constructor]].
    + intros cs s2 W2 A2 V2. apply pres_ret; [pr|]. split; [|exact V2]. exact (v_refs_appends _ _ _ V1 A2).
  - eapply pres_bind; [pr|apply pres_with_reader; pr|]. intros [code r'] s' _ _ ->. apply pres_ret; [pr|].
    split; constructor.
Qed.

Lemma signature_at_pres {A} p md h (m : M reader A) s : pres p appends s (signature_at p md h m) (fun _ s' => s' = s).
Proof.
  unfold signature_at. eapply pres_bind; [pr|apply pres_lift; pr|]. intros r s' _ _ ->. apply pres_lift; pr.
Qed.

Lemma load_field_pres p md t i off s : v_ref s t ->
  pres p appends s (load_field p md t i off) (fun f s' => v_field (List.length (c_types s')) f).
Proof.
  intro Ht. unfold load_field. eapply pres_bind; [pr|apply pres_row_at; pr|]. intros d s' _ _ ->.
  eapply pres_bind with (Q := fun _ s' => s' = s); [pr|apply pres_unwrap; [pr|auto]|]. intros n s' _ _ ->.
  eapply pres_bind; [pr|apply signature_at_pres|]. intros e s' _ _ ->.
  eapply pres_bind; [pr|apply type_for_element_pres|]. intros u s1 _ A1 V1. apply pres_ret; [pr|].
  split; [exact V1|]. exact (v_ref_appends _ _ _ Ht A1).
Qed.

Lemma param_type_names_pres p md es s : pres p appends s (param_type_names p md es) (fun _ _ => True).
Proof.
  eapply pres_weaken; [|intros; exact I].
  apply (pres_map_m p appends) with (Q := fun _ _ => True) (I := fun _ => True); try pr; auto.
  intros e s1 _. eapply pres_bind; [pr|apply pres_unwrap_result, type_for_element_pres|]. intros t s2 _ _ _.
  eapply pres_bind; [pr|apply pres_the_type; pr|]. intros ti s3 _ _ _. now apply pres_ret; [pr|].
Qed.

Lemma load_params_pres p md : forall es h s, pres p appends s (load_params p md h es)
  (fun ps s' => Forall (fun q => v_ref s' (pa_type q)) ps).
Proof.
  induction es as [|e es IH]; intros h s; cbn [load_params].
  - apply pres_ret; [pr|constructor].
  - eapply pres_bind; [pr|apply pres_row_at; pr|]. intros d s' _ _ ->.
    eapply pres_bind with (Q := fun _ s' => s' = s); [pr|apply pres_unwrap; [pr|auto]|]. intros n s' _ _ ->.
    eapply pres_bind; [pr|apply type_for_element_pres|]. intros u s1 _ A1 V1.
    eapply pres_bind; [pr|apply IH|]. intros ps s2 _ A2 V2. apply pres_ret; [pr|].
    constructor; [exact (v_ref_appends _ _ _ V1 A2)|exact V2].
Qed.

Lemma load_method_pres p md t i s : v_ref s t ->
  pres p appends s (load_method p md t i) (fun m s' => v_method (List.length (c_types s')) m).
Proof.
  intro Ht. unfold load_method. eapply pres_bind; [pr|apply pres_row_at; pr|]. intros d s' _ _ ->.
  eapply pres_bind with (Q := fun _ s' => s' = s); [pr|apply pres_unwrap; [pr|auto]|]. intros n s' _ _ ->.
  eapply pres_bind; [pr|apply signature_at_pres|]. intros sig s' _ _ ->.
  eapply pres_bind with (Q := fun i s' => v_impl (List.length (c_types s')) i); [pr| |].
  - destruct (mi_internal_call _).
    + eapply pres_bind; [pr|apply param_type_names_pres|]. intros names s1 _ _ _.
      eapply pres_bind; [pr|apply type_for_element_pres|]. intros rt s2 _ _ _.
      eapply pres_bind; [pr|apply pres_the_type; pr|]. intros rti s3 _ _ _.
      eapply pres_bind; [pr|apply pres_the_type; pr|]. intros dti s4 _ _ _.
      eapply pres_bind with (Q := fun _ _ => True); [pr|apply pres_ok_or; [pr|auto]|]. intros im s5 _ _ _.
      apply pres_ret; [pr|exact I].
    + destruct (ma_pinvoke_impl _); [apply pres_panic|]. destruct (negb _).
      * eapply pres_bind; [pr|apply load_body_pres|]. intros b s1 _ _ V. apply pres_ret; [pr|exact V].
      * apply pres_ret; [pr|exact I].
  - intros im s1 _ A1 V1. eapply pres_bind; [pr|apply type_for_element_pres|]. intros rt s2 _ A2 V2.
    eapply pres_bind; [pr|apply load_params_pres|]. intros ps s3 _ A3 V3. apply pres_ret; [pr|].
    pose proof (appends_trans _ _ _ A2 A3) as A23. pose proof (appends_trans _ _ _ A1 A23) as A13.
    split; [exact (v_ref_appends _ _ _ Ht A13)|]. split; [exact (v_ref_appends _ _ _ V2 A3)|].
    split; [exact V3|]. eapply v_impl_mono; [apply appends_count; exact A23|exact V1].
Qed.

(** ** Reading code *)

Lemma type_eq_pres p t u s : pres p appends s (type_eq t u) (fun _ s' => s' = s).
Proof.
  unfold type_eq. eapply pres_bind; [pr|apply pres_the_type; pr|]. intros a s' _ _ [-> _].
  eapply pres_bind; [pr|apply pres_the_type; pr|]. intros b s' _ _ [-> _]. now apply pres_ret; [pr|].
Qed.
Lemma contains_type_pres p : forall l u s, pres p appends s (contains_type l u) (fun _ s' => s' = s).
Proof.
  induction l as [|t l IH]; intros u s; cbn [contains_type]; [now apply pres_ret; [pr|]|].
  eapply pres_bind; [pr|apply type_eq_pres|]. intros [|] s' _ _ ->; [now apply pres_ret; [pr|]|apply IH].
Qed.
Lemma instance_of_pres p : forall f t u s, pres p appends s (instance_of f t u) (fun _ s' => s' = s).
Proof.
  induction f as [|f IH]; intros t u s; cbn [instance_of]; [apply pres_nofuel|].
  eapply pres_bind; [pr|apply type_eq_pres|]. intros [|] s' _ _ ->; [now apply pres_ret; [pr|]|].
  eapply pres_bind; [pr|apply pres_the_type; pr|]. intros ti s' _ _ [-> _].
  destruct (ti_base ti); [apply IH|apply contains_type_pres].
Qed.
Lemma is_reference_type_pres p f t s : pres p appends s (is_reference_type f t) (fun _ s' => s' = s).
Proof.
  unfold is_reference_type. eapply pres_bind; [pr|apply pres_named; pr|]. intros v s' _ _ [-> _].
  eapply pres_bind; [pr|apply instance_of_pres|]. intros b s' _ _ ->. now apply pres_ret; [pr|].
Qed.
Lemma try_sizes_pres p : forall l t s, pres p appends s (try_sizes l t) (fun _ s' => s' = s).
Proof.
  induction l as [|[x n] l IH]; intros t s; cbn [try_sizes]; [now apply pres_ret; [pr|]|].
  eapply pres_bind; [pr|apply pres_named; pr|]. intros v s' _ _ [-> _].
  eapply pres_bind; [pr|apply type_eq_pres|]. intros [|] s' _ _ ->; [now apply pres_ret; [pr|]|apply IH].
Qed.
Lemma type_size_pres p : forall f t s, pres p appends s (type_size f p t) (fun _ s' => s' = s).
Proof.
  induction f as [|f IH]; intros t s; cbn [type_size]; [apply pres_nofuel|].
  eapply pres_bind; [pr|apply try_sizes_pres|]. intros [n|] s' _ _ ->; [now apply pres_ret; [pr|]|].
  eapply pres_bind; [pr|apply pres_the_type; pr|]. intros ti s' _ _ [-> _].
  eapply pres_bind; [pr| |].
  - apply pres_fold_m; try pr. intros a x s1 _.
    eapply pres_bind; [pr|apply is_reference_type_pres|]. intros r s' _ _ ->.
    eapply pres_bind with (Q := fun _ s' => s' = s1); [pr| |].
    + destruct r; [now apply pres_ret; [pr|]|apply IH].
    + intros n s' _ _ ->. apply pres_ovf; pr.
  - intros sz s' _ _ ->. destruct (ti_base ti); [|now apply pres_ret; [pr|]].
    eapply pres_bind; [pr|apply IH|]. intros n s' _ _ ->. apply pres_ovf; pr.
Qed.

(** ** Changing a type or an assembly in place *)

Lemma modify_type_pres p n0 a0 t f s : (n0 <= t)%nat ->
  (forall ti, same_identity ti (f ti)) ->
  (forall ti, v_type (List.length (c_types s)) (List.length (c_arena s)) ti ->
              v_type (List.length (c_types s)) (List.length (c_arena s)) (f ti)) ->
  pres p (within n0 a0) s (modify_type t f) (fun _ _ => True).
Proof.
  intros Hn Hf Hv W. unfold modify_type. cbn.
  assert (HI : forall i ti, nth_error (c_types s) i = Some ti ->
    exists ti', nth_error (update (c_types s) t f) i = Some ti' /\ same_identity ti ti').
  { intros i ti Hi. rewrite nth_update. destruct (Nat.eqb t i) eqn:E; rewrite Hi; cbn; eexists; split; eauto using same_identity_refl. }
  assert (HI' : forall i ti', nth_error (update (c_types s) t f) i = Some ti' ->
    exists ti, nth_error (c_types s) i = Some ti /\ same_identity ti ti').
  { intros i ti' Hi. destruct (nth_error (c_types s) i) as [ti|] eqn:E.
    - destruct (HI _ _ E) as (u & Hu & I). rewrite Hu in Hi. injection Hi as <-. eauto.
    - rewrite nth_update, E in Hi. destruct (Nat.eqb _ _); discriminate. }
  split; [|split; [|exact I]].
  - destruct W as []. split; cbn [c_types c_next_id c_type_map c_arena c_assemblies c_primitives set_types];
      rewrite ?length_update, ?len_update; auto.
    + intros i ti' Hi. destruct (HI' _ _ Hi) as (ti & E & Id). rewrite <- (ids_ok _ _ E). symmetry. apply Id.
    + intro n. specialize (map_ok n). destruct (map_get bytes_eqb n (c_type_map s)) as [i|].
      * destruct map_ok as [(ti & E & Hname) Hl]. split.
        -- destruct (HI _ _ E) as (u & Hu & Id). exists u. split; [exact Hu|]. rewrite <- Hname. symmetry. apply Id.
        -- intros j tj Hj Hu. destruct (HI' _ _ Hu) as (ti' & E' & Id).
           replace (ti_full_name tj) with (ti_full_name ti') by apply Id. eauto.
      * intros u Hu. apply In_nth_error in Hu as [i Hi]. destruct (HI' _ _ Hi) as (ti & E & Id).
        replace (ti_full_name u) with (ti_full_name ti) by apply Id. apply map_ok. eapply nth_error_In; eauto.
    + apply Forall_forall. intros u Hu. apply In_nth_error in Hu as [i Hi].
      rewrite Forall_forall in types_ok. rewrite nth_update in Hi. destruct (Nat.eqb t i).
      * destruct (nth_error (c_types s) i) as [ti|] eqn:E; [|discriminate]. injection Hi as <-.
        apply Hv, types_ok. eapply nth_error_In; eauto.
      * apply types_ok. eapply nth_error_In; eauto.
  - split; auto; cbn [c_types set_types].
    + rewrite length_update. lia.
    + intros i Hi. rewrite nth_update. destruct (Nat.eqb t i) eqn:E; [|reflexivity]. apply Nat.eqb_eq in E. lia.
Qed.

Lemma modify_assembly_pres p n0 a0 f s :
  (forall ai, v_assembly (List.length (c_types s)) ai -> v_assembly (List.length (c_types s)) (f ai)) ->
  pres p (within n0 a0) s (modify_assembly a0 f) (fun _ _ => True).
Proof.
  intros Hv W. unfold modify_assembly. cbn. split; [|split; [|exact I]].
  - destruct W as []. split; cbn [c_types c_next_id c_type_map c_arena c_assemblies c_primitives set_arena];
      rewrite ?length_update; auto.
    + intros a ai Ha. rewrite nth_update in Ha. destruct (Nat.eqb a0 a).
      * destruct (nth_error (c_arena s) a) as [[x|]|] eqn:E; cbn in Ha; try discriminate.
        injection Ha as <-. eauto.
      * eauto.
    + eapply Forall_impl; [|exact loaded_ok]. intros a [ai Ha]. unfold alive. cbn [c_arena set_arena].
      rewrite nth_update, Ha. destruct (Nat.eqb a0 a); cbn; eauto.
  - split; auto; cbn [c_types c_arena set_arena].
    + intros i ti Hi. eauto using same_identity_refl.
    + now rewrite length_update.
    + intros a Ha. rewrite nth_update. destruct (Nat.eqb a0 a) eqn:E; [|reflexivity]. apply Nat.eqb_eq in E. congruence.
    + intros [ai Ha]. unfold alive. cbn [c_arena set_arena]. rewrite nth_update, Ha, Nat.eqb_refl. cbn. eauto.
Qed.

(** ** Loading the types of an assembly *)

Section Load.
  Variables (p : profile) (md : metadata) (n0 : nat) (a0 : aref).

  (** A type that belongs to the assembly being loaded. *)
  Definition mine (s : vm) (t : tref) : Prop :=
    (n0 <= t)%nat /\ exists ti, nth_error (c_types s) t = Some ti /\ ti_assembly ti = a0.
  (** The state while loading. *)
  Definition loading (s : vm) : Prop :=
    (n0 <= List.length (c_types s))%nat /\ (a0 < List.length (c_arena s))%nat.

  Lemma mine_within s s' t : mine s t -> within n0 a0 s s' -> mine s' t.
  Proof.
    intros [H (ti & E & A)] W. split; [exact H|]. destruct (wi_types _ _ _ _ W _ _ E) as (u & Hu & Id).
    exists u. split; [exact Hu|]. rewrite <- A. symmetry. apply Id.
  Qed.
  Lemma loading_within s s' : loading s -> within n0 a0 s s' -> loading s'.
  Proof. intros [A B] W. destruct W as []. split; lia. Qed.
  Lemma mine_ref s t : mine s t -> v_ref s t.
  Proof. intros [_ (ti & E & _)]. exact (nth_lt _ _ _ E). Qed.
  Lemma v_ref_within s s' t : v_ref s t -> within n0 a0 s s' -> v_ref s' t.
  Proof. intros H W. destruct W as []. unfold v_ref, v_type_ref in *. lia. Qed.

  Lemma pres_in {A} s (m : M vm A) Q : loading s -> pres p appends s m Q -> pres p (within n0 a0) s m Q.
  Proof. intros [L _] H. eapply pres_rel; [exact H|]. intros s' A1. now apply appends_within. Qed.

  Lemma load_type_pres i s : loading s -> pres p (within n0 a0) s (load_type p md a0 i)
    (fun t s' => mine s' t /\
       forall d n ns, table_index p (tb_type_def (m_tables md)) (handle_of_position TTypeDef i) = Ok d tt ->
         string_at md (td_name d) = Some n -> string_at md (td_namespace d) = Some ns ->
         exists ti, nth_error (c_types s') t = Some ti /\ ti_full_name ti = full_name n ns).
  Proof.
    intro L. unfold load_type.
    eapply pres_bind with (Q := fun d s' => s' = s /\
      table_index p (tb_type_def (m_tables md)) (handle_of_position TTypeDef i) = Ok d tt); [pr| |].
    { intros W. unfold row_at, lift. destruct (table_index _ _ _) as [d []|e []|w|w|]; auto using within_refl. }
    intros d s' _ _ (-> & Hd).
    eapply pres_bind with (Q := fun n s' => s' = s /\ string_at md (td_name d) = Some n); [pr|apply pres_unwrap; [pr|auto]|].
    intros n s' _ _ (-> & Hn).
    eapply pres_bind with (Q := fun ns s' => s' = s /\ string_at md (td_namespace d) = Some ns); [pr|apply pres_unwrap; [pr|auto]|].
    intros ns s' _ _ (-> & Hns).
    eapply pres_weaken.
    - apply (pres_register p s (fun id _ => mkType a0 id n ns (full_name n ns) None
        (ta_is_abstract (td_attributes d)) None [] [] [] [] [])).
      + intros id s' A _. apply adds_within; [apply L|exact A].
      + reflexivity.
      + reflexivity.
      + reflexivity.
      + intro id. destruct L as [_ L]. unfold v_type. cbn. repeat split; auto.
    - intros t s' _ _ (-> & id & E). split.
      + split; [apply L|]. eexists. rewrite E, nth_error_app2, Nat.sub_diag by lia. cbn. split; reflexivity.
      + intros d' n' ns' Hd' Hn' Hns'. rewrite Hd in Hd'. injection Hd' as <-.
        eexists. rewrite E, nth_error_app2, Nat.sub_diag by lia. cbn. split; [reflexivity|]. cbn. congruence.
  Qed.

  (** The name of row [i] of the type table is that of a type of this assembly. *)
  Definition row_named (i : N) (s : vm) : Prop :=
    forall d n ns, table_index p (tb_type_def (m_tables md)) (handle_of_position TTypeDef i) = Ok d tt ->
      string_at md (td_name d) = Some n -> string_at md (td_namespace d) = Some ns ->
      exists t ti, (n0 <= t)%nat /\ nth_error (c_types s) t = Some ti /\ ti_full_name ti = full_name n ns.
  Lemma row_named_within i s s' : row_named i s -> within n0 a0 s s' -> row_named i s'.
  Proof.
    intros H W d n ns Hd Hn Hns. destruct (H d n ns Hd Hn Hns) as (t & ti & Ht & E & F).
    destruct (wi_types _ _ _ _ W _ _ E) as (u & Hu & Id). exists t, u. split; [exact Ht|]. split; [exact Hu|].
    rewrite <- F. symmetry. apply Id.
  Qed.

  Lemma load_types_pres : forall n i s, loading s -> pres p (within n0 a0) s (load_types p md a0 n i)
    (fun ts s' => Forall (mine s') ts /\ (List.length ts = n) /\
       forall j, i <= j < i + N.of_nat n -> row_named j s').
  Proof.
    induction n as [|n IH]; intros i s L; cbn [load_types].
    - apply pres_ret; [pr|]. split; [constructor|]. split; [reflexivity|]. intros j Hj. lia.
    - eapply pres_bind; [pr|apply load_type_pres, L|]. intros t s1 W1 R1 (M1 & N1).
      eapply pres_bind; [pr|apply IH; eapply loading_within; eauto|]. intros ts s2 W2 R2 (M2 & Len & N2).
      apply pres_ret; [pr|]. split.
      + constructor; [exact (mine_within _ _ _ M1 R2)|exact M2].
      + split; [cbn; lia|]. intros j Hj. destruct (N.eq_dec j i) as [->|Hne].
        * eapply row_named_within; [|exact R2]. intros d n' ns Hd Hn Hns.
          destruct (N1 d n' ns Hd Hn Hns) as (ti & E & F). exists t, ti. split; [apply M1|]. auto.
        * apply N2. lia.
  Qed.

  Lemma resolve_base_pres t i s : loading s -> mine s t ->
    pres p (within n0 a0) s (resolve_base p md t i) (fun _ _ => True).
  Proof.
    intros L Mt. unfold resolve_base.
    eapply pres_bind; [pr|apply pres_row_at; pr|]. intros d s' _ _ ->.
    assert (H : pres p (within n0 a0) s
      (bind (type_def_or_ref_name p md (td_extends d)) (fun o =>
       bind (match o with Some n => get_type n | None => ret None end) (fun b =>
       bind (ok_or b "Unable to find base type") (fun b => modify_type t (with_base (Some b)))))) (fun _ _ => True)).
    { eapply pres_bind with (Q := fun o s' => s' = s); [pr| |].
      - intros W. pose proof (type_def_or_ref_name_state p md (td_extends d) s) as H.
        destruct (type_def_or_ref_name p md (td_extends d) s); auto; subst; auto using within_refl.
      - intros o s' _ _ ->.
        eapply pres_bind with (Q := fun o s' => s' = s /\ v_opt (List.length (c_types s)) o); [pr| |].
        + destruct o as [n|]; [|apply pres_ret; [pr|split; [reflexivity|exact I]]].
          eapply pres_weaken; [apply pres_get_type; pr|]. intros [u|] s' _ _ [-> Hu]; split; auto.
          * exact (latest_valid _ _ _ Hu).
          * exact I.
        + intros b s' _ _ [-> Hb].
          eapply pres_bind with (Q := fun b s' => s' = s /\ v_ref s b); [pr|apply pres_ok_or; [pr|]; intros x ->; auto|].
          intros x s' _ _ [-> Hx]. apply modify_type_pres; [apply Mt| |].
          * intro ti. repeat split.
          * intros ti (A & B & C). split; [exact A|]. split; [exact Hx|exact C]. }
    destruct (ref_table (td_extends d)); destruct (ref_index (td_extends d)); try exact H.
    apply pres_ret; [pr|exact I].
  Qed.

  Lemma resolve_kind_pres t i s : loading s -> mine s t ->
    pres p (within n0 a0) s (resolve_kind p md t i) (fun _ _ => True).
  Proof.
    intros L Mt. unfold resolve_kind.
    eapply pres_bind; [pr|apply pres_row_at; pr|]. intros d s' _ _ ->.
    eapply pres_bind; [pr|apply pres_the_type; pr|]. intros ti s' _ _ (-> & _ & _).
    eapply pres_bind with (Q := fun _ s' => s' = s); [pr| |].
    - destruct (ta_semantics _); [|now apply pres_ret; [pr|]].
      destruct (ti_base ti); [|now apply pres_ret; [pr|]].
      eapply pres_bind; [pr|apply pres_the_type; pr|]. intros bi s' _ _ (-> & _). now apply pres_ret; [pr|].
    - intros k s' _ _ ->. apply modify_type_pres; [apply Mt| |]; [intro; repeat split|].
      intros u H. exact H.
  Qed.

  Lemma load_fields_pres fuel t : forall n i off s, loading s -> mine s t ->
    pres p (within n0 a0) s (load_fields fuel p md t n i off) (fun _ _ => True).
  Proof.
    induction n as [|n IH]; intros i off s L Mt; cbn [load_fields]; [apply pres_ret; [pr|exact I]|].
    eapply pres_bind; [pr|apply pres_in; [exact L|apply load_field_pres, mine_ref, Mt]|].
    intros f s1 W1 R1 V1. pose proof (loading_within _ _ L R1) as L1. pose proof (mine_within _ _ _ Mt R1) as M1.
    eapply pres_bind with (Q := fun _ _ => True); [pr|apply modify_type_pres; [apply Mt| |]|].
    { intro; repeat split. }
    { intros ti (A & B & C & D & E & F & G). repeat split; auto.
      - apply Forall_app. split; [exact C|]. constructor; [exact V1|constructor].
      - constructor; [exact V1|exact F]. }
    intros _ s2 W2 R2 _. pose proof (loading_within _ _ L1 R2) as L2. pose proof (mine_within _ _ _ M1 R2) as M2.
    eapply pres_bind; [pr|apply pres_the_type; pr|]. intros ti s' _ _ (-> & E & _).
    replace (ti_assembly ti) with a0 by (destruct M2 as [_ (u & Eu & Au)]; congruence).
    eapply pres_bind with (Q := fun _ _ => True); [pr|apply modify_assembly_pres|].
    { intros ai (A & B & C & D & F & G). repeat split; auto. apply Forall_app. split; [exact F|].
      constructor; [|constructor]. eapply v_field_mono; [|exact V1]. apply (wi_count _ _ _ _ R2). }
    intros _ s3 W3 R3 _. pose proof (loading_within _ _ L2 R3) as L3. pose proof (mine_within _ _ _ M2 R3) as M3.
    eapply pres_bind; [pr|apply pres_in; [exact L3|apply type_size_pres]|]. intros sz s' _ _ ->.
    eapply pres_bind; [pr|apply pres_ovf; pr|]. intros off' s' _ _ ->. now apply IH.
  Qed.

  Lemma run_length_pres i lf total s : loading s -> pres p (within n0 a0) s (run_length p md i lf total) (fun _ s' => s' = s).
  Proof.
    intro L. unfold run_length. eapply pres_bind; [pr|apply pres_row_at; pr|]. intros d s' _ _ ->.
    destruct (_ =? _).
    - eapply pres_bind; [pr|apply pres_ovf; pr|]. intros x s' _ _ ->. apply pres_ovf; pr.
    - eapply pres_bind; [pr|apply pres_row_at; pr|]. intros x s' _ _ ->. apply pres_ovf; pr.
  Qed.

  Lemma pres_reserve n s : pres p (within n0 a0) s (reserve n) (fun _ s' => s' = s).
  Proof. unfold reserve. destruct (_ <? _); [apply pres_panic|now apply pres_ret; [pr|]]. Qed.

  Lemma resolve_fields_pres fuel t i s : loading s -> mine s t ->
    pres p (within n0 a0) s (resolve_fields fuel p md t i) (fun _ _ => True).
  Proof.
    intros L Mt. unfold resolve_fields. eapply pres_bind; [pr|apply pres_row_at; pr|]. intros d s' _ _ ->.
    eapply pres_bind; [pr|apply run_length_pres, L|]. intros c s' _ _ ->.
    eapply pres_bind; [pr|apply pres_reserve|]. intros _ s' _ _ ->.
    eapply pres_bind; [pr|apply pres_ovf; pr|]. intros stop s' _ _ ->.
    eapply pres_bind; [pr|apply pres_the_type; pr|]. intros ti s' _ _ (-> & _ & _).
    eapply pres_bind with (Q := fun _ s' => s' = s); [pr| |].
    - destruct (ti_base ti); [|now apply pres_ret; [pr|]]. apply pres_in; [exact L|apply type_size_pres].
    - intros off s' _ _ ->. eapply pres_bind; [pr|apply pres_the_assembly; pr|]. intros ai s' _ _ (-> & _).
      now apply load_fields_pres.
  Qed.

  Lemma resolve_methods_pres t i s : loading s -> mine s t ->
    pres p (within n0 a0) s (resolve_methods p md t i) (fun _ _ => True).
  Proof.
    intros L Mt. unfold resolve_methods. eapply pres_bind; [pr|apply pres_row_at; pr|]. intros d s' _ _ ->.
    eapply pres_bind; [pr|apply run_length_pres, L|]. intros c s' _ _ ->.
    eapply pres_bind; [pr|apply pres_reserve|]. intros _ s' _ _ ->.
    eapply pres_bind; [pr|apply pres_ovf; pr|]. intros stop s' _ _ ->.
    apply pres_range_m with (I := fun s => loading s /\ mine s t); try pr.
    - intros s1 s2 [A B] R1. split; [eapply loading_within; eauto|eapply mine_within; eauto].
    - intros j s1 [L1 M1]. eapply pres_bind; [pr|apply pres_in; [exact L1|apply load_method_pres, mine_ref, M1]|].
      intros m s2 _ R2 V2. apply modify_type_pres; [apply M1|intro; repeat split|].
      intros u (A & B & C & D & E & F & G). repeat split; auto.
      + apply Forall_app. split; [exact D|]. constructor; [exact V2|constructor].
      + constructor; [exact V2|exact G].
    - auto.
  Qed.

  Lemma resolve_pres fuel t i s : loading s -> mine s t ->
    pres p (within n0 a0) s (resolve fuel p md t i) (fun _ _ => True).
  Proof.
    intros L Mt. unfold resolve.
    eapply pres_bind; [pr|now apply resolve_base_pres|]. intros _ s1 _ R1 _.
    pose proof (loading_within _ _ L R1) as L1. pose proof (mine_within _ _ _ Mt R1) as M1.
    eapply pres_bind; [pr|now apply resolve_kind_pres|]. intros _ s2 _ R2 _.
    pose proof (loading_within _ _ L1 R2) as L2. pose proof (mine_within _ _ _ M1 R2) as M2.
    eapply pres_bind; [pr|now apply resolve_fields_pres|]. intros _ s3 _ R3 _.
    pose proof (loading_within _ _ L2 R3) as L3. pose proof (mine_within _ _ _ M2 R3) as M3.
    now apply resolve_methods_pres.
  Qed.

  Lemma resolve_types_pres fuel : forall ts i s, loading s -> Forall (mine s) ts ->
    pres p (within n0 a0) s (resolve_types fuel p md ts i) (fun _ _ => True).
  Proof.
    induction ts as [|t ts IH]; intros i s L F; cbn [resolve_types]; [apply pres_ret; [pr|exact I]|].
    inversion F; subst. eapply pres_bind; [pr|now apply resolve_pres|]. intros _ s1 _ R1 _.
    apply IH; [eapply loading_within; eauto|]. eapply Forall_impl; [|eassumption].
    intros u Hu. exact (mine_within _ _ _ Hu R1).
  Qed.

  Lemma full_name_at_pres nh nsh s : pres p (within n0 a0) s (full_name_at md nh nsh)
    (fun fn s' => s' = s /\ exists n ns, string_at md nh = Some n /\ string_at md nsh = Some ns /\ fn = full_name n ns).
  Proof.
    unfold full_name_at.
    eapply pres_bind with (Q := fun n s' => s' = s /\ string_at md nh = Some n); [pr|apply pres_unwrap; [pr|auto]|].
    intros n s' _ _ [-> Hn].
    eapply pres_bind with (Q := fun n s' => s' = s /\ string_at md nsh = Some n); [pr|apply pres_unwrap; [pr|auto]|].
    intros ns s' _ _ [-> Hns]. apply pres_ret; [pr|]. eauto 6.
  Qed.

  (** Every row of the type table has been given a type. *)
  Definition rows_named (s : vm) : Prop :=
    forall h d n ns, table_index p (tb_type_def (m_tables md)) h = Ok d tt ->
      string_at md (td_name d) = Some n -> string_at md (td_namespace d) = Some ns ->
      exists t ti, (n0 <= t)%nat /\ nth_error (c_types s) t = Some ti /\ ti_full_name ti = full_name n ns.
  Lemma rows_named_within s s' : rows_named s -> within n0 a0 s s' -> rows_named s'.
  Proof.
    intros H W h d n ns Hd Hn Hns. destruct (H h d n ns Hd Hn Hns) as (t & ti & Ht & E & F).
    destruct (wi_types _ _ _ _ W _ _ E) as (u & Hu & Id). exists t, u. split; [exact Ht|]. split; [exact Hu|].
    rewrite <- F. symmetry. apply Id.
  Qed.

  Lemma load_interface_impl_pres ii s : loading s -> rows_named s ->
    pres p (within n0 a0) s (load_interface_impl p md ii) (fun _ _ => True).
  Proof.
    intros L H. unfold load_interface_impl.
    eapply pres_bind with (Q := fun d s' => s' = s /\
      table_index p (tb_type_def (m_tables md)) (ii_class ii) = Ok d tt); [pr| |].
    { intros W. unfold row_at, lift. destruct (table_index _ _ _) as [d []|e []|w|w|]; auto using within_refl. }
    intros d s' _ _ (-> & Hd).
    eapply pres_bind; [pr|apply full_name_at_pres|]. intros fn s' W _ (-> & n & ns & Hn & Hns & ->).
    eapply pres_bind; [pr|apply pres_get_type; pr|]. intros o s' _ _ [-> Ho].
    eapply pres_bind with (Q := fun t s' => s' = s /\ (n0 <= t)%nat /\ v_ref s t); [pr|apply pres_unwrap; [pr|]|].
    { intros t ->. split; [reflexivity|]. destruct (H _ _ _ _ Hd Hn Hns) as (u & ui & Hu & E & F).
      split; [|exact (latest_valid _ _ _ Ho)]. destruct (Nat.le_gt_cases n0 t) as [Hle|Hlt]; [exact Hle|exfalso].
      destruct Ho as [_ Hl]. apply (Hl u ui); [lia|exact E|exact F]. }
    intros t s' _ _ (-> & Ht & Hv).
    eapply pres_bind with (Q := fun _ s' => s' = s); [pr| |].
    { destruct (ref_table (ii_interface ii)); try apply pres_panic;
      (eapply pres_bind; [pr|apply pres_row_at; pr|]; intros x s' _ _ ->;
       eapply pres_weaken; [apply full_name_at_pres|]; intros y s' _ _ [-> _]; reflexivity). }
    intros ifn s' _ _ ->. eapply pres_bind; [pr|apply pres_get_type; pr|]. intros o2 s' _ _ [-> Ho2].
    eapply pres_bind with (Q := fun i s' => s' = s /\ v_ref s i); [pr|apply pres_unwrap; [pr|]|].
    { intros i ->. split; [reflexivity|]. exact (latest_valid _ _ _ Ho2). }
    intros i s' _ _ [-> Hi]. apply modify_type_pres; [exact Ht|intro; repeat split|].
    intros u (A & B & C & D & E & F & G). repeat split; auto.
    apply Forall_app. split; [exact E|]. constructor; [exact Hi|constructor].
  Qed.

  Lemma rows_named_all s :
    (forall j, j < len (tb_type_def (m_tables md)) -> row_named j s) -> rows_named s.
  Proof.
    intros H h d n ns Hd Hn Hns. unfold table_index in Hd.
    destruct (u_sub p 64 h 1) as [i|] eqn:E; [|discriminate].
    destruct (nth_error (tb_type_def (m_tables md)) (N.to_nat i)) as [x|] eqn:Ex; [|discriminate].
    injection Hd as <-. pose proof (nth_lt _ _ _ Ex) as Hlt.
    refine (H i _ x n ns _ Hn Hns).
    - unfold len. lia.
    - unfold table_index. cbn [handle_of_position]. rewrite u_sub_small by lia.
      replace (i + 1 - 1) with i by lia. now rewrite Ex.
  Qed.

  Lemma get_row_pres {A} (l : list A) tok s (V : A -> Prop) : Forall V l ->
    pres p (within n0 a0) s (get_row p l tok) (fun o s' => s' = s /\ match o with Some x => V x | None => True end).
  Proof.
    intro F. unfold get_row. destruct (u_sub _ _ _ _) as [i|]; [|apply pres_panic].
    apply pres_ret; [pr|]. split; [reflexivity|]. destruct (nth_error l (N.to_nat i)) eqn:E; [|exact I].
    rewrite Forall_forall in F. apply F. eapply nth_error_In; eauto.
  Qed.

  Lemma resolve_method_pres a tok s : pres p (within n0 a0) s (resolve_method p a tok)
    (fun o s' => s' = s /\ match o with Some m => v_method (List.length (c_types s)) m | None => True end).
  Proof.
    unfold resolve_method. eapply pres_bind; [pr|apply pres_the_assembly; pr|].
    intros ai s' _ _ (-> & _ & V). destruct V as (A & B & C & D & E & F).
    destruct (_ =? _); [now apply get_row_pres|]. destruct (_ =? _); [now apply get_row_pres|].
    apply pres_ret; [pr|]. split; [reflexivity|exact I].
  Qed.

  (** What loading the contents of an assembly does to the runtime. *)
  Definition finishes (s s' : vm) : Prop :=
    exists s1, within n0 a0 s s1 /\ s' = set_assemblies s1 (c_assemblies s1 ++ [a0]).
  Definition ends (s : vm) (m : M vm unit) : Prop :=
    consistent p s ->
    match m s with
    | Ok _ s' => consistent p s' /\ finishes s s'
    | Err _ s' => consistent p s' /\ within n0 a0 s s'
    | _ => True
    end.
  Lemma ends_bind {A} s (m : M vm A) (k : A -> M vm unit) (Q : A -> vm -> Prop) :
    pres p (within n0 a0) s m Q ->
    (forall a s', consistent p s' -> within n0 a0 s s' -> Q a s' -> ends s' (k a)) ->
    ends s (bind m k).
  Proof.
    intros Hm Hk W. specialize (Hm W). unfold bind. destruct (m s) as [a s1|e s1|w|w|]; auto.
    destruct Hm as (W1 & R1 & Q1). specialize (Hk a s1 W1 R1 Q1 W1).
    destruct (k a s1) as [b s2|e s2|w|w|]; auto.
    - destruct Hk as (W2 & s3 & R3 & ->). split; [exact W2|]. exists s3. split; [|reflexivity].
      eapply within_trans; eauto.
    - destruct Hk as (W2 & R2). split; [exact W2|]. eapply within_trans; eauto.
  Qed.

  Lemma load_contents_ends fuel s : loading s -> alive s a0 -> ends s (load_contents fuel p md a0).
  Proof.
    intros L Al. unfold load_contents.
    eapply ends_bind; [apply load_types_pres, L|]. intros ts s1 _ R1 (M1 & _ & N1).
    pose proof (loading_within _ _ L R1) as L1. pose proof (wi_alive _ _ _ _ R1 Al) as A1.
    assert (H1 : rows_named s1). { apply rows_named_all. intros j Hj. apply N1. unfold len in Hj. lia. }
    eapply ends_bind; [now apply resolve_types_pres|]. intros _ s2 _ R2 _.
    pose proof (loading_within _ _ L1 R2) as L2. pose proof (wi_alive _ _ _ _ R2 A1) as A2.
    pose proof (rows_named_within _ _ H1 R2) as H2.
    eapply ends_bind with (Q := fun _ _ => True).
    { apply pres_iter_m with (I := fun s => loading s /\ rows_named s); try pr; auto.
      - intros x y [X Y] Z. split; [eapply loading_within; eauto|eapply rows_named_within; eauto].
      - intros x y [X Y]. now apply load_interface_impl_pres. }
    intros _ s3 _ R3 _. pose proof (wi_alive _ _ _ _ R3 A2) as A3.
    assert (M3 : Forall (mine s3) ts).
    { eapply Forall_impl; [|exact M1]. intros t Ht. exact (mine_within _ _ _ (mine_within _ _ _ Ht R2) R3). }
    eapply ends_bind with (Q := fun _ _ => True).
    { apply modify_assembly_pres. intros ai (A & B & C & D & E & F). repeat split; auto.
      eapply Forall_impl; [|exact M3]. intros t. apply mine_ref. }
    intros _ s4 _ R4 _. pose proof (wi_alive _ _ _ _ R4 A3) as A4.
    eapply ends_bind with (Q := fun defs s' => Forall (fun ms => Forall (v_method (List.length (c_types s'))) ms) defs).
    { apply pres_map_m with (I := fun _ => True) (Q := fun ms s' => Forall (v_method (List.length (c_types s'))) ms); try pr; auto.
      - intros ms x y F Z. eapply Forall_impl; [|exact F]. intros m. apply v_method_mono. apply (wi_count _ _ _ _ Z).
      - intros t x _. eapply pres_bind; [pr|apply pres_the_type; pr|]. intros ti x' _ _ (-> & _ & V).
        apply pres_ret; [pr|]. apply V. }
    intros defs s5 _ R5 F5. pose proof (wi_alive _ _ _ _ R5 A4) as A5.
    eapply ends_bind with (Q := fun _ _ => True).
    { apply modify_assembly_pres. intros ai (A & B & C & D & E & F). repeat split; auto.
      apply Forall_concat. exact F5. }
    intros _ s6 _ R6 _. pose proof (wi_alive _ _ _ _ R6 A5) as A6.
    eapply ends_bind with (Q := fun _ _ => True).
    { destruct (m_entry_point md) as [ep|]; [|apply pres_ret; [pr|exact I]].
      eapply pres_bind; [pr|apply resolve_method_pres|]. intros o s' _ _ [-> Ho].
      eapply pres_bind with (Q := fun m s' => s' = s6 /\ v_method (List.length (c_types s6)) m);
        [pr|apply pres_ok_or; [pr|]; intros m ->; auto|].
      intros m s' _ _ [-> Hm]. apply modify_assembly_pres. intros ai (A & B & C & D & E & F).
      split; [exact A|]. split; [exact Hm|]. split; [exact C|]. split; [exact D|]. split; [exact E|exact F]. }
    intros _ s7 W7 R7 _. pose proof (wi_alive _ _ _ _ R7 A6) as A7.
    intros _. cbn. split.
    - destruct W7 as []. split; auto. cbn [c_assemblies set_assemblies]. apply Forall_app. split; [exact loaded_ok|].
      constructor; [exact A7|constructor].
    - exists s7. split; [apply within_refl|reflexivity].
  Qed.
End Load.

Lemma prefix_by_nth {A} : forall l l' : list A,
  (List.length l <= List.length l')%nat ->
  (forall i, (i < List.length l)%nat -> nth_error l' i = nth_error l i) -> exists k, l' = l ++ k.
Proof.
  induction l as [|x l IH]; intros l' L H.
  - exists l'. reflexivity.
  - destruct l' as [|y l']; [cbn in L; lia|]. pose proof (H 0%nat ltac:(cbn; lia)) as E. cbn in E. injection E as ->.
    destruct (IH l') as [k ->].
    + cbn in L. lia.
    + intros i Hi. apply (H (S i)). cbn. lia.
    + exists k. reflexivity.
Qed.

(** ** Loading an assembly *)

Lemma full_name_at_pres' p (R : vm -> vm -> Prop) md nh nsh s : (forall s, R s s) -> (forall a b c, R a b -> R b c -> R a c) ->
  pres p R s (full_name_at md nh nsh) (fun _ s' => s' = s).
Proof.
  intros R1 R2. unfold full_name_at. eapply pres_bind; [exact R2|apply pres_unwrap with (Q := fun _ s' => s' = s); auto|].
  intros n s' _ _ ->. eapply pres_bind; [exact R2|apply pres_unwrap with (Q := fun _ s' => s' = s); auto|].
  intros m s' _ _ ->. now apply pres_ret.
Qed.

Lemma get_method_pres p t n s : pres p appends s (get_method t n)
  (fun o s' => s' = s /\ match o with Some m => v_method (List.length (c_types s)) m | None => True end).
Proof.
  unfold get_method. eapply pres_bind; [pr|apply pres_the_type; pr|]. intros ti s' _ _ (-> & _ & V).
  apply pres_ret; [pr|]. split; [reflexivity|]. destruct V as (_ & _ & _ & _ & _ & _ & V).
  unfold map_get. match goal with |- context [find ?f ?l] => destruct (find f l) as [[k v]|] eqn:E end; [|exact I].
  apply find_some in E as [E _]. rewrite Forall_forall in V. exact (V _ E).
Qed.

Lemma load_method_refs_pres p md : forall rows s, pres p appends s (load_method_refs p md rows)
  (fun ms s' => s' = s /\ Forall (v_method (List.length (c_types s))) ms).
Proof.
  induction rows as [|mr rows IH]; intros s; cbn [load_method_refs]; [apply pres_ret; [pr|]; auto|].
  destruct (ref_table (mr_parent mr)); try apply IH.
  eapply pres_bind; [pr|apply pres_row_at; pr|]. intros tr s' _ _ ->.
  eapply pres_bind; [pr|apply full_name_at_pres'; pr|]. intros fn s' _ _ ->.
  eapply pres_bind; [pr|apply pres_get_type; pr|]. intros o s' _ _ [-> _].
  eapply pres_bind with (Q := fun _ s' => s' = s); [pr|apply pres_ok_or; [pr|auto]|]. intros t s' _ _ ->.
  eapply pres_bind with (Q := fun _ s' => s' = s); [pr|apply pres_ok_or; [pr|auto]|]. intros mn s' _ _ ->.
  eapply pres_bind; [pr|apply get_method_pres|]. intros om s' _ _ [-> V].
  eapply pres_bind with (Q := fun m s' => s' = s /\ v_method (List.length (c_types s)) m);
    [pr|apply pres_ok_or; [pr|]; intros m ->; auto|]. intros m s' _ _ [-> Vm].
  eapply pres_bind; [pr|apply IH|]. intros ms s' _ _ [-> Vs]. apply pres_ret; [pr|]. auto.
Qed.

Lemma load_type_refs_pres p md s : pres p appends s (load_type_refs p md)
  (fun ts s' => s' = s /\ Forall (v_ref s) ts).
Proof.
  unfold load_type_refs. induction (tb_type_ref (m_tables md)) as [|tr l IH]; cbn [map_m];
    [apply pres_ret; [pr|]; auto|].
  eapply pres_bind with (Q := fun t s' => s' = s /\ v_ref s t); [pr| |].
  { eapply pres_bind; [pr|apply full_name_at_pres'; pr|]. intros fn s' _ _ ->.
    eapply pres_bind; [pr|apply pres_get_type; pr|]. intros o s' _ _ [-> Ho].
    apply pres_ok_or; [pr|]. intros t ->. split; [reflexivity|]. exact (latest_valid _ _ _ Ho). }
  intros t s' _ _ [-> Ht]. eapply pres_bind; [pr|apply IH|]. intros ts s' _ _ [-> Hts].
  apply pres_ret; [pr|]. auto.
Qed.

Lemma within_evolves s s1 ai :
  let a0 := List.length (c_arena s) in
  within (List.length (c_types s)) a0 (set_arena s (c_arena s ++ [Some ai])) s1 ->
  forall l f, evolves s (set_assemblies (set_arena s1 (update (c_arena s1) a0 f)) (c_assemblies s1 ++ l)) /\
  evolves s (set_assemblies s1 (c_assemblies s1 ++ l)).
Proof.
  intros a0 W l f. destruct W as [wp wo wpr wl wc wt wb wa wot wal]. cbn [c_paths c_output c_primitives c_assemblies c_types c_arena set_arena] in *.
  assert (T : exists k, c_types s1 = c_types s ++ k). { apply prefix_by_nth; auto. }
  rewrite length_snoc in wa. fold a0 in wa.
  assert (NE : forall i, (i < a0)%nat -> nth_error (c_arena s1) i = nth_error (c_arena s) i).
  { intros i Hi. rewrite wot by lia. subst a0. now rewrite nth_error_app1. }
  split; split; cbn [c_paths c_output c_primitives c_assemblies c_types c_arena set_arena set_assemblies]; auto.
  - rewrite wl. eauto.
  - apply prefix_by_nth; [rewrite length_update; fold a0; lia|]. intros i Hi. rewrite nth_update.
    destruct (Nat.eqb a0 i) eqn:E; [apply Nat.eqb_eq in E; subst a0; lia|]. now apply NE.
  - rewrite wl. eauto.
  - apply prefix_by_nth; [fold a0; lia|]. intros i Hi. now apply NE.
Qed.

Lemma load_data_pres p fs : forall fuel data s,
  pres p evolves s (load_data fuel p fs data)
    (fun a s' => alive s' a /\ exists l, c_assemblies s' = c_assemblies s ++ l ++ [a]).
Proof.
  induction fuel as [|fuel IH]; intros data s; cbn [load_data]; [apply pres_nofuel|].
  eapply pres_bind; [pr|apply pres_lift; pr|]. intros md s' _ _ ->.
  eapply pres_bind; [pr|apply pres_row_at; pr|]. intros row s' _ _ ->.
  eapply pres_bind with (Q := fun _ s' => s' = s); [pr|apply pres_unwrap; [pr|auto]|]. intros n s' _ _ ->.
  eapply pres_bind with (Q := fun _ _ => True); [pr| |].
  { apply pres_iter_m with (I := fun _ => True); try pr; auto. intros r x _.
    eapply pres_bind with (Q := fun _ s' => s' = x); [pr|apply pres_ok_or; [pr|auto]|]. intros rn x' _ _ ->.
    eapply pres_bind with (Q := fun y s' => s' = x /\ y = x); [pr|intro; cbn; auto using evolves_refl|].
    intros y x' _ _ [-> ->]. destruct (loaded _ _ _); [apply pres_ret; [pr|exact I]|].
    eapply pres_bind with (Q := fun _ s' => s' = x); [pr|apply pres_ok_or; [pr|auto]|]. intros path x' _ _ ->.
    destruct (fs _ _); try (apply pres_fail; pr).
    eapply pres_bind; [pr|apply IH|]. intros. apply pres_ret; [pr|exact I]. }
  intros _ s1 _ [_ _ _ [l0 El] _ _] _.
  eapply pres_bind with (Q := fun ms s' => s' = s1 /\ Forall (v_method (List.length (c_types s1))) ms); [pr| |].
  { eapply pres_rel; [apply load_method_refs_pres|]. apply appends_evolves. }
  intros ms s' _ _ [-> Vm].
  eapply pres_bind with (Q := fun ts s' => s' = s1 /\ Forall (v_ref s1) ts); [pr| |].
  { eapply pres_rel; [apply load_type_refs_pres|]. apply appends_evolves. }
  intros ts s' W1 _ [-> Vt]. set (ai := mkAssembly _ _ _ _ _ _ _ _).
  intros _. unfold new_assembly, bind. set (a0 := List.length (c_arena s1)).
  set (s2 := set_arena s1 (c_arena s1 ++ [Some ai])).
  assert (W2 : consistent p s2).
  { destruct W1 as []. subst s2. split; cbn [c_types c_next_id c_type_map c_arena c_assemblies c_primitives set_arena]; auto.
    - rewrite length_snoc. eapply Forall_impl; [|exact types_ok]. intros t. apply v_type_mono; lia.
    - intros b bi Hb. destruct (Nat.lt_ge_cases b a0) as [Hlt|Hge].
      + rewrite nth_error_app1 in Hb by exact Hlt. eauto.
      + rewrite nth_error_app2 in Hb by exact Hge. destruct (b - List.length (c_arena s1))%nat as [|k]; cbn in Hb; [|destruct k; discriminate].
        injection Hb as <-. repeat split; auto; constructor.
    - eapply Forall_impl; [|exact loaded_ok]. intros b [bi Hb]. exists bi. cbn [c_arena set_arena].
      rewrite nth_error_app1; [exact Hb|]. exact (nth_lt _ _ _ Hb). }
  assert (A2 : alive s2 a0).
  { exists ai. subst s2 a0. cbn [c_arena set_arena]. now rewrite nth_error_app2, Nat.sub_diag by lia. }
  assert (L2 : loading (List.length (c_types s1)) a0 s2).
  { split; [subst s2; cbn; lia|]. subst s2 a0. cbn [c_arena set_arena]. rewrite length_snoc. lia. }
  pose proof (load_contents_ends p md (List.length (c_types s1)) a0 fuel s2 L2 A2 W2) as H.
  unfold drop_on_error. destruct (load_contents fuel p md a0 s2) as [u s3|e s3|w|w|]; auto.
  - destruct H as (W3 & s4 & R4 & ->). split; [exact W3|].
    destruct (within_evolves s1 s4 ai R4 [a0] (fun x => x)) as [_ E]. split; [exact E|].
    split.
    + destruct (wi_alive _ _ _ _ R4 A2) as [bi Hb]. exists bi. exact Hb.
    + exists l0. cbn [c_assemblies set_assemblies]. rewrite (wi_loaded _ _ _ _ R4). unfold s2. cbn [c_assemblies set_arena].
      rewrite El. now rewrite app_assoc.
  - destruct H as (W3 & R3).
    destruct (within_evolves s1 s3 ai R3 [] (fun _ => None)) as [E _].
    replace (set_assemblies _ _) with (set_arena s3 (update (c_arena s3) a0 (fun _ => None))) in E
      by (unfold set_assemblies, set_arena; cbn; now rewrite app_nil_r).
    split; [|exact E].
    pose proof W3 as W3'. destruct W3' as []. split; cbn [c_types c_next_id c_type_map c_arena c_assemblies c_primitives set_arena];
      rewrite ?length_update; auto.
    + intros b bi Hb. rewrite nth_update in Hb. destruct (Nat.eqb a0 b).
      * destruct (nth_error (c_arena s3) b); discriminate.
      * eauto.
    + rewrite (wi_loaded _ _ _ _ R3). unfold s2. cbn [c_assemblies set_arena].
      eapply Forall_impl; [|exact (SpecRuntime.loaded_ok _ _ W1)]. intros b [bi Hb].
      pose proof (nth_lt _ _ _ Hb) as Hlt. exists bi. cbn [c_arena set_arena]. rewrite nth_update.
      destruct (Nat.eqb a0 b) eqn:Eb; [apply Nat.eqb_eq in Eb; subst a0; lia|].
      rewrite (wi_others _ _ _ _ R3) by (subst a0; lia). unfold s2. cbn [c_arena set_arena].
      now rewrite nth_error_app1.
Qed.

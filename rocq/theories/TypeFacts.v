(** Inheritance and sizes. *)
From Coq Require Import NArith ZArith String List Bool Lia.
From Coq.Strings Require Import Byte.
From Verif Require Import Base BaseFacts Metadata Runtime SpecRuntime SpecTypes RuntimeInv InterpInv.
Import ListNotations.
Open Scope N_scope.

Lemma named_run (x : string) (s : vm) t s' p : consistent p s -> named x s = Ok t s' ->
  s' = s /\ latest (c_types s) (bytes_of_string x) t.
Proof.
  intro W. unfold named, bind, get_type, unwrap. pose proof (map_ok _ _ W (bytes_of_string x)) as M.
  destruct (map_get bytes_eqb (bytes_of_string x) (c_type_map s)); [|discriminate]. intro E. injection E as <- <-.
  split; [reflexivity|exact M].
Qed.
Lemma named_is (x : string) (s : vm) t s' p : consistent p s -> named x s = Ok t s' ->
  s' = s /\ is_named (c_types s) t (bytes_of_string x).
Proof. intros W E. destruct (named_run _ _ _ _ _ W E) as [Q L]. split; [exact Q|]. apply L. Qed.
Lemma type_eq_run t u s b s' : type_eq t u s = Ok b s' -> s' = s /\
  exists ti ui, nth_error (c_types s) t = Some ti /\ nth_error (c_types s) u = Some ui /\ b = bytes_eqb (ti_full_name ti) (ti_full_name ui).
Proof.
  unfold type_eq, bind, the_type. destruct (nth_error (c_types s) t) as [ti|]; [|discriminate].
  destruct (nth_error (c_types s) u) as [ui|]; [|discriminate]. intro E. injection E as <- <-. split; [reflexivity|]. exists ti, ui. auto.
Qed.
Lemma type_eq_named t u n s b s' : is_named (c_types s) u n -> type_eq t u s = Ok b s' -> s' = s /\ (b = true <-> is_named (c_types s) t n).
Proof.
  intros (ui & Eu & Nu) E. apply type_eq_run in E as (-> & ti & ui' & Et & Eu' & ->). split; [reflexivity|].
  assert (ui' = ui) as -> by congruence. subst n. split.
  - intro B. apply bytes_eqb_spec in B. exists ti. auto.
  - intros (x & Ex & Nx). assert (x = ti) as -> by congruence. rewrite Nx. apply bytes_eqb_refl.
Qed.

Lemma contains_type_run n u : forall l s b s', is_named (c_types s) u n -> contains_type l u s = Ok b s' ->
  s' = s /\ (b = true <-> exists i, In i l /\ is_named (c_types s) i n).
Proof.
  induction l as [|t l IH]; intros s b s' U E; cbn [contains_type] in E.
  - injection E as <- <-. split; [reflexivity|]. split; [discriminate|]. intros (i & [] & _).
  - apply bind_inv_ok in E as (c & s1 & E1 & E). destruct (type_eq_named _ _ _ _ _ _ U E1) as [-> B].
    destruct c.
    + injection E as <- <-. split; [reflexivity|]. split; [|reflexivity]. intros _. exists t. split; [now left|]. now apply B.
    + destruct (IH _ _ _ U E) as [-> H]. split; [reflexivity|]. rewrite H. split.
      * intros (i & Hi & N). exists i. split; [now right|exact N].
      * intros (i & [<-|Hi] & N); [apply B in N; discriminate|]. eauto.
Qed.

Lemma instance_of_run n u s : is_named (c_types s) u n -> forall f t b s', instance_of f t u s = Ok b s' ->
  s' = s /\ (b = true <-> rooted (c_types s) t n).
Proof.
  intros U. induction f as [|f IH]; intros t b s' E; [discriminate|]. cbn [instance_of] in E.
  apply bind_inv_ok in E as (c & s1 & E1 & E). destruct (type_eq_named _ _ _ _ _ _ U E1) as [-> B]. destruct c.
  - injection E as <- <-. split; [reflexivity|]. split; [|reflexivity]. intros _. apply rooted_class with t; [constructor|]. now apply B.
  - apply bind_inv_ok in E as (ti & s1 & E2 & E). unfold the_type in E2.
    destruct (nth_error (c_types s) t) as [x|] eqn:Et; [|discriminate]. injection E2 as <- <-.
    assert (NB : ~ is_named (c_types s) t n) by (intro X; apply B in X; discriminate).
    destruct (ti_base x) as [v|] eqn:Eb.
    + destruct (IH _ _ _ E) as [-> H]. split; [reflexivity|]. rewrite H. split.
      * intros [w A N|w wi i A Ew Ew' Hi N].
        -- apply rooted_class with w; [|exact N]. eapply by_base; eauto.
        -- apply rooted_interface with w wi i; auto. eapply by_base; eauto.
      * intros [w A N|w wi i A Ew Ew' Hi N].
        -- inversion A as [|? ? u' ? E3 E4 A']; subst; [contradiction|]. assert (x = ti) by congruence. subst ti.
           assert (u' = v) as -> by congruence. now apply rooted_class with w.
        -- inversion A as [|? ? u' ? E3 E4 A']; subst; [congruence|]. assert (x = ti) by congruence. subst ti.
           assert (u' = v) as -> by congruence. now apply rooted_interface with w wi i.
    + destruct (contains_type_run _ _ _ _ _ _ U E) as [-> H]. split; [reflexivity|]. rewrite H. split.
      * intros (i & Hi & N). apply rooted_interface with t x i; auto. constructor.
      * intros [w A N|w wi i A Ew Ew' Hi N].
        -- inversion A as [|? ? u' ? E3 E4 A']; subst; [contradiction|]. congruence.
        -- inversion A as [|? ? u' ? E3 E4 A']; subst; [|congruence]. assert (x = wi) by congruence. subst wi. eauto.
Qed.

(** ** Sizes *)

Lemma widths_same s k : In (s, k) primitive_sizes <-> In (s, k) widths.
Proof. unfold primitive_sizes, widths. cbn [In]. tauto. Qed.

Lemma try_sizes_run p t s : consistent p s -> forall l o s', try_sizes l t s = Ok o s' ->
  s' = s /\ match o with
            | Some k => exists x, In (x, k) l /\ is_named (c_types s) t (bytes_of_string x)
            | None => forall x k, In (x, k) l -> ~ is_named (c_types s) t (bytes_of_string x)
            end.
Proof.
  intro W. induction l as [|(x, k) l IH]; intros o s' E; cbn [try_sizes] in E.
  - injection E as <- <-. split; [reflexivity|]. intros ? ? [].
  - apply bind_inv_ok in E as (u & s1 & E1 & E). destruct (named_is _ _ _ _ _ W E1) as [-> U].
    apply bind_inv_ok in E as (b & s1 & E2 & E). destruct (type_eq_named _ _ _ _ _ _ U E2) as [-> B]. destruct b.
    + injection E as <- <-. split; [reflexivity|]. exists x. split; [now left|]. now apply B.
    + destruct (IH _ _ E) as [-> H]. split; [reflexivity|]. destruct o as [k'|].
      * destruct H as (y & Hy & N). exists y. split; [now right|exact N].
      * intros y k' [X|Hy]; [|eauto]. injection X as <- <-. intro N. apply B in N. discriminate.
Qed.

Scheme size_mut := Minimality for size Sort Prop
  with fields_size_mut := Minimality for fields_size Sort Prop
  with storage_mut := Minimality for storage Sort Prop.
Combined Scheme sizes_ind from size_mut, fields_size_mut, storage_mut.

Lemma is_named_unique ts t n m : is_named ts t n -> is_named ts t m -> n = m.
Proof. intros (a & Ea & <-) (b & Eb & <-). congruence. Qed.
Lemma width_unique ts t k k' : width ts t k -> width ts t k' -> k = k'.
Proof.
  intros (x & Hx & N) (y & Hy & N'). pose proof (is_named_unique _ _ _ _ N N') as E. clear N N'.
  assert (B : forallb (fun a => forallb (fun b => implb (bytes_eqb (bytes_of_string (fst a)) (bytes_of_string (fst b)))
            (snd a =? snd b)) widths) widths = true) by reflexivity.
  rewrite forallb_forall in B. specialize (B _ Hx). rewrite forallb_forall in B. specialize (B _ Hy).
  cbn [fst snd] in B. rewrite E, bytes_eqb_refl in B. now apply N.eqb_eq.
Qed.

Lemma sizes_unique ts :
  (forall t n, size ts t n -> forall m, size ts t m -> m = n) /\
  (forall l n, fields_size ts l n -> forall m, fields_size ts l m -> m = n) /\
  (forall t n, storage ts t n -> forall m, storage ts t m -> m = n).
Proof.
  apply sizes_ind.
  - intros t k Wd m H. inversion H as [? ? Wd'|? ti ? ? NW|? ti b ? ? ? NW]; subst;
      [eapply width_unique; eauto|destruct (NW _ Wd)..].
  - intros t ti n E NW B F IH m H. inversion H as [? ? Wd'|? ti' ? E' ? ? F'|? ti' b ? ? E' ? B']; subst; [now apply NW in Wd'| |congruence].
    assert (ti' = ti) as -> by congruence. now apply IH.
  - intros t ti b n k E NW B F IH S IHS m H. inversion H as [? ? Wd'|? ti' ? E' ? B'|? ti' b' n' k' E' ? B' F' S']; subst; [now apply NW in Wd'|congruence|].
    assert (ti' = ti) as -> by congruence. assert (b' = b) as -> by congruence. now rewrite (IH _ F'), (IHS _ S').
  - intros m H. now inversion H.
  - intros f l n St F IH m H. inversion H; subst; [auto|congruence].
  - intros f l n k St S IHS F IH m H. inversion H as [|? ? ? ? F'|? ? n' k' ? S' F']; subst; [congruence|].
    now rewrite (IH _ F'), (IHS _ S').
  - intros t NV m H. inversion H; subst; [reflexivity|contradiction].
  - intros t n V S IH m H. inversion H; subst; [contradiction|auto].
Qed.
Lemma size_unique ts t n m : size ts t n -> size ts t m -> n = m.
Proof. intros A B. exact (proj1 (sizes_unique ts) _ _ B _ A). Qed.

(** Addition as the program does it. *)
Lemma u_add_mod p a b c : u_add p 64 a b = Some c ->
  c = (a + b) mod 2 ^ 64 /\ (p = Debug -> c = a + b) .
Proof.
  unfold u_add. destruct (N.ltb_spec (a + b) (2 ^ 64)).
  - intro E. injection E as <-. split; [|auto]. symmetry. now apply N.mod_small.
  - destruct p; [discriminate|]. intro E. injection E as <-. split; [reflexivity|discriminate].
Qed.
(** The size that the program computes from the real one. *)
Definition computed (p : profile) (n m : N) : Prop := m = n mod 2 ^ 64 /\ (p = Debug -> m = n).
Lemma computed_small p n : n < 2 ^ 64 -> computed p n n.
Proof. split; [|auto]. symmetry. now apply N.mod_small. Qed.
Lemma computed_add p n m n' m' c : computed p n n' -> computed p m m' -> u_add p 64 n' m' = Some c -> computed p (n + m) c.
Proof.
  intros [A D] [A' D'] U. apply u_add_mod in U as [B D'']. split.
  - subst. symmetry. apply N.add_mod. discriminate.
  - intro P. rewrite (D'' P), (D P), (D' P). reflexivity.
Qed.

Lemma value_type_run p f t s b s' : consistent p s -> is_reference_type f t s = Ok b s' ->
  s' = s /\ (b = false <-> value_type (c_types s) t).
Proof.
  intros W E. unfold is_reference_type in E. apply bind_inv_ok in E as (v & s1 & E1 & E).
  destruct (named_is _ _ _ _ _ W E1) as [-> U]. apply bind_inv_ok in E as (c & s1 & E2 & E).
  destruct (instance_of_run _ _ _ U _ _ _ _ E2) as [-> H]. injection E as <- <-. split; [reflexivity|].
  unfold value_type. rewrite <- H. destruct c; cbn; intuition discriminate.
Qed.

Lemma type_size_run p s : consistent p s -> forall f t n s', type_size f p t s = Ok n s' ->
  s' = s /\ exists m, size (c_types s) t m /\ computed p m n.
Proof.
  intro W. induction f as [|f IH]; intros t n s' E; [discriminate|]. cbn [type_size] in E.
  apply bind_inv_ok in E as (o & s1 & E1 & E). destruct (try_sizes_run _ _ _ W _ _ _ E1) as [-> H].
  destruct o as [k|].
  - injection E as <- <-. split; [reflexivity|]. destruct H as (x & Hx & N). apply widths_same in Hx as Hw. exists k. split.
    + apply size_primitive. exists x. auto.
    + apply computed_small. clear - Hx. assert (B : forallb (fun a => snd a <? 2 ^ 64) primitive_sizes = true) by reflexivity.
      rewrite forallb_forall in B. specialize (B _ Hx). now apply N.ltb_lt.
  - assert (NW : forall k, ~ width (c_types s) t k).
    { intros k (x & Hx & N). apply widths_same in Hx. exact (H _ _ Hx N). }
    apply bind_inv_ok in E as (ti & s1 & E2 & E). unfold the_type in E2.
    destruct (nth_error (c_types s) t) as [x|] eqn:Et; [|discriminate]. injection E2 as <- <-.
    apply bind_inv_ok in E as (own & s1 & E2 & E).
    assert (F : forall l a own0 s1, fold_m (fun a fi => r <- is_reference_type f (f_type fi) ;;
                 n <- (if r then ret 8 else type_size f p (f_type fi)) ;; ovf (u_add p 64 a n)) a
                 (filter (fun fi => negb (f_static fi)) l) s = Ok own0 s1 -> forall a0, computed p a0 a ->
               s1 = s /\ exists m, fields_size (c_types s) l m /\ computed p (a0 + m) own0).
    { clear - W IH. induction l as [|fi l IHl]; intros a own s1 E a0 C.
      - cbn in E. injection E as <- <-. split; [reflexivity|]. exists 0. split; [constructor|]. now rewrite N.add_0_r.
      - cbn [filter] in E. destruct (f_static fi) eqn:St; cbn [negb] in E.
        + destruct (IHl _ _ _ E _ C) as (-> & m & F & Cm). split; [reflexivity|]. exists m. split; [now constructor|exact Cm].
        + cbn [fold_m] in E. apply bind_inv_ok in E as (a' & s2 & E1 & E).
          apply bind_inv_ok in E1 as (r & s3 & E2 & E1). destruct (value_type_run _ _ _ _ _ _ W E2) as [-> V].
          apply bind_inv_ok in E1 as (k & s3 & E3 & E1).
          assert (K : s3 = s /\ exists k0, storage (c_types s) (f_type fi) k0 /\ computed p k0 k).
          { destruct r.
            - injection E3 as <- <-. split; [reflexivity|]. exists 8. split; [|now apply computed_small].
              constructor. intro X. apply V in X. discriminate.
            - destruct (IH _ _ _ E3) as (-> & k0 & S & Ck). split; [reflexivity|]. exists k0. split; [|exact Ck].
              constructor; [now apply V|exact S]. }
          destruct K as (-> & k0 & S & Ck). destruct (u_add p 64 a k) as [c|] eqn:U; [|discriminate]. injection E1 as <- <-.
          destruct (IHl _ _ _ E (a0 + k0)) as (-> & m & F & Cm); [eapply computed_add; eauto|].
          split; [reflexivity|]. exists (m + k0). split; [now constructor|]. replace (a0 + (m + k0)) with (a0 + k0 + m) by lia.
          exact Cm. }
    destruct (F _ _ _ _ E2 0) as (-> & m & Fs & C); [now apply computed_small|]. clear F E2. rewrite N.add_0_l in C.
    destruct (ti_base x) as [b|] eqn:Eb.
    + apply bind_inv_ok in E as (k & s1 & E3 & E). destruct (IH _ _ _ E3) as (-> & k0 & S & Ck).
      destruct (u_add p 64 own k) as [c|] eqn:U; [|discriminate]. injection E as <- <-.
      split; [reflexivity|]. exists (m + k0). split; [eapply size_derived; eauto|eapply computed_add; eauto].
    + injection E as <- <-. split; [reflexivity|]. exists m. split; [eapply size_root; eauto|exact C].
Qed.

(** ** New types do not change the relations between the old ones *)
Section Appended.
  Variables (ts more : list type_info).
  (** References stay inside the list. *)
  Hypothesis closed : forall t ti, nth_error ts t = Some ti ->
    (forall u, ti_base ti = Some u -> (u < List.length ts)%nat) /\
    Forall (fun i => (i < List.length ts)%nat) (ti_interfaces ti) /\
    Forall (fun f => (f_type f < List.length ts)%nat) (ti_fields ti).
  Lemma nth_old t : (t < List.length ts)%nat -> nth_error (ts ++ more) t = nth_error ts t.
  Proof. intro H. now apply nth_error_app1. Qed.
  Lemma is_named_old t n : (t < List.length ts)%nat -> is_named (ts ++ more) t n <-> is_named ts t n.
  Proof. intro H. unfold is_named. now rewrite nth_old. Qed.
  Lemma nth_len t (ti : type_info) : nth_error ts t = Some ti -> (t < List.length ts)%nat.
  Proof. intro H. apply nth_error_Some. congruence. Qed.
  Lemma ancestor_new t u : ancestor ts t u -> ancestor (ts ++ more) t u.
  Proof. induction 1; [constructor|]. eapply by_base; eauto. rewrite nth_old; [assumption|eapply nth_len; eauto]. Qed.
  Lemma ancestor_old t u : ancestor (ts ++ more) t u -> (t < List.length ts)%nat -> ancestor ts t u /\ (u < List.length ts)%nat.
  Proof.
    induction 1 as [|t ti u v E B A IH]; intro L; [split; [constructor|exact L]|].
    rewrite nth_old in E by exact L. destruct (closed _ _ E) as (C & _). specialize (IH (C _ B)).
    split; [|apply IH]. eapply by_base; eauto. apply IH.
  Qed.
  Lemma rooted_old t n : (t < List.length ts)%nat -> rooted (ts ++ more) t n <-> rooted ts t n.
  Proof.
    intro L. split.
    - intros [u A N|u ui i A E B I N].
      + destruct (ancestor_old _ _ A L) as [A' L']. apply rooted_class with u; [exact A'|]. now apply is_named_old in N.
      + destruct (ancestor_old _ _ A L) as [A' L']. rewrite nth_old in E by exact L'.
        destruct (closed _ _ E) as (_ & CI & _). rewrite Forall_forall in CI. specialize (CI _ I).
        apply rooted_interface with u ui i; auto. now apply is_named_old in N.
    - intros [u A N|u ui i A E B I N].
      + apply rooted_class with u; [now apply ancestor_new|]. apply is_named_old; [|exact N].
        destruct N as (x & Ex & _). eapply nth_len; eauto.
      + apply rooted_interface with u ui i; auto; [now apply ancestor_new|rewrite nth_old; [exact E|eapply nth_len; eauto]|].
        apply is_named_old; [|exact N]. destruct N as (x & Ex & _). eapply nth_len; eauto.
  Qed.
  Lemma width_old t k : (t < List.length ts)%nat -> width (ts ++ more) t k <-> width ts t k.
  Proof.
    intro L. unfold width. split; intros (x & Hx & N); exists x; (split; [exact Hx|]); now apply is_named_old in N || apply is_named_old.
  Qed.
  Lemma sizes_new :
    (forall t n, size ts t n -> size (ts ++ more) t n) /\
    (forall l n, fields_size ts l n -> Forall (fun f => (f_type f < List.length ts)%nat) l -> fields_size (ts ++ more) l n) /\
    (forall t n, storage ts t n -> (t < List.length ts)%nat -> storage (ts ++ more) t n).
  Proof.
    apply sizes_ind.
    - intros t k Wd. apply size_primitive. apply width_old; [|exact Wd]. destruct Wd as (x & _ & y & E & _). eapply nth_len; eauto.
    - intros t ti n E NW B F IH. pose proof (nth_len _ _ E) as L. apply size_root with ti; auto; [now rewrite nth_old| |].
      + intros k Wd. apply width_old in Wd; [|exact L]. exact (NW _ Wd).
      + apply IH. apply (closed _ _ E).
    - intros t ti b n m E NW B F IH S IHS. pose proof (nth_len _ _ E) as L. apply size_derived with ti b; auto; [now rewrite nth_old| |].
      + intros k Wd. apply width_old in Wd; [|exact L]. exact (NW _ Wd).
      + apply IH. apply (closed _ _ E).
    - constructor.
    - intros f l n St F IH H. inversion H; subst. constructor; auto.
    - intros f l n k St S IHS F IH H. inversion H; subst. apply fields_one; auto.
    - intros t NV L. constructor. intro V. apply rooted_old in V; [|exact L]. exact (NV V).
    - intros t n V S IH L. constructor; [|exact IH]. now apply rooted_old.
  Qed.
End Appended.

Lemma consistent_closed p s t ti : consistent p s -> nth_error (c_types s) t = Some ti ->
  (forall u, ti_base ti = Some u -> (u < List.length (c_types s))%nat) /\
  Forall (fun i => (i < List.length (c_types s))%nat) (ti_interfaces ti) /\
  Forall (fun f => (f_type f < List.length (c_types s))%nat) (ti_fields ti).
Proof.
  intros W E. apply nth_error_In in E. pose proof (types_ok _ _ W) as T. rewrite Forall_forall in T. specialize (T _ E).
  destruct T as (_ & B & F & _ & I & _). split; [|split].
  - intros u X. rewrite X in B. exact B.
  - exact I.
  - eapply Forall_impl; [|exact F]. intros f [H _]. exact H.
Qed.
Lemma size_appends p s more t n : consistent p s -> size (c_types s) t n -> size (c_types s ++ more) t n.
Proof. intro W. apply (proj1 (sizes_new (c_types s) more (fun t ti => consistent_closed p s t ti W))). Qed.

(** Loads that succeed: the forward direction of the loader, for images that SpecLoad describes. *)
From Coq Require Import NArith String List Bool Lia Arith.
From Coq.Strings Require Import Byte.
From Verif Require Import Base BaseFacts BinaryReader ParseSpec ReaderFacts Attributes Tables TablesProofs Blob BlobProofs Metadata
  Runtime Loader SpecBytes SpecBlob SpecPe Pe SpecMetadata SpecRuntime
  RuntimeInv SpecHistory HistoryProofs InterpInv SpecBody BodyProofs TypeFacts LayoutFacts SpecTypes SpecLoader LoaderFacts LoaderRun MemberFacts SpecLoad.
Import ListNotations.
Open Scope N_scope.

Lemma bind_ok {S A B} (m : M S A) (k : A -> M S B) s a s1 : m s = Ok a s1 -> bind m k s = k a s1.
Proof. intro E. unfold bind. now rewrite E. Qed.

Lemma name_of_at ts t ti : nth_error ts t = Some ti -> name_of ts t = ti_full_name ti.
Proof. intro E. unfold name_of. now rewrite E. Qed.
Lemma name_of_named ts t n : is_named ts t n -> name_of ts t = n.
Proof. intros (ti & E & <-). now apply name_of_at. Qed.

(** ** Sizes *)

Section Sizes.
  Variables (p : profile) (top : nat) (pl : plan) (s : vm).
  Hypothesis PO : plan_ok top pl.
  Hypothesis W : consistent p s.
  Hypothesis PL : planned pl (c_types s).
  Hypothesis CORE : forall x, In x ("System.ValueType"%string :: map fst widths) -> known s (bytes_of_string x).
  Let ts := c_types s.

  Lemma valid_type t : (t < List.length ts)%nat -> exists ti, nth_error ts t = Some ti.
  Proof. intro H. apply nth_error_Some in H. destruct (nth_error ts t) as [ti|]; [eauto|congruence]. Qed.
  Lemma named_fwd x : known s (bytes_of_string x) -> exists u, named x s = Ok u s /\ is_named ts u (bytes_of_string x).
  Proof.
    intro K. destruct (known_latest p s _ W K) as (u & [L _] & G). exists u. split; [|exact L].
    unfold named, bind. now rewrite G.
  Qed.
  Lemma type_eq_fwd t ti u n : nth_error ts t = Some ti -> is_named ts u n ->
    exists b, type_eq t u s = Ok b s /\ (b = true <-> ti_full_name ti = n).
  Proof.
    intros E (ui & Eu & Nu). exists (bytes_eqb (ti_full_name ti) (ti_full_name ui)). split.
    - unfold type_eq, bind, the_type. unfold ts in E, Eu. rewrite E. now rewrite Eu.
    - rewrite Nu. apply bytes_eqb_spec.
  Qed.
  Lemma try_sizes_fwd t ti : nth_error ts t = Some ti -> forall l, (forall x k, In (x, k) l -> In (x, k) widths) ->
    exists o, try_sizes l t s = Ok o s /\
      match o with
      | Some k => exists x, In (x, k) l /\ ti_full_name ti = bytes_of_string x
      | None => forall x k, In (x, k) l -> ti_full_name ti <> bytes_of_string x
      end.
  Proof.
    intros E. induction l as [|[x k] l IH]; intro Hl; cbn [try_sizes].
    - exists None. split; [reflexivity|]. intros x k [].
    - destruct (named_fwd x) as (u & Eu & Nu).
      { apply CORE. right. apply (in_map fst _ _ (Hl x k (or_introl eq_refl))). }
      destruct (type_eq_fwd t ti u _ E Nu) as (b & Eb & B). rewrite (bind_ok _ _ _ _ _ Eu), (bind_ok _ _ _ _ _ Eb). destruct b.
      + exists (Some k). split; [reflexivity|]. exists x. split; [now left|]. now apply B.
      + destruct IH as (o & Eo & Ho); [intros; apply Hl; now right|]. exists o. split; [exact Eo|]. destruct o as [k'|].
        * destruct Ho as (y & Hy & Ny). exists y. split; [now right|exact Ny].
        * intros y k' [Q|Q]; [|eauto]. injection Q as <- <-. intro X. apply B in X. discriminate.
  Qed.
  Lemma contains_fwd v n : is_named ts v n -> forall l, Forall (fun i => (i < List.length ts)%nat) l ->
    exists b, contains_type l v s = Ok b s /\ (b = true -> exists i, In i l /\ name_of ts i = n).
  Proof.
    intro V. induction l as [|i l IH]; intro F; cbn [contains_type].
    - exists false. split; [reflexivity|discriminate].
    - inversion F as [|? ? Hi F']; subst. destruct (valid_type _ Hi) as [ii Ei].
      destruct (type_eq_fwd _ _ _ _ Ei V) as (b & Eb & B). rewrite (bind_ok _ _ _ _ _ Eb). destruct b.
      + exists true. split; [reflexivity|]. intros _. exists i. split; [now left|]. rewrite (name_of_at _ _ _ Ei). now apply B.
      + destruct (IH F') as (b & Ec & C). exists b. split; [exact Ec|]. intro X. destruct (C X) as (j & Hj & Nj). exists j. split; [now right|exact Nj].
  Qed.
  Lemma instance_fwd v : is_named ts v a_value_type -> forall f t ti, nth_error ts t = Some ti ->
    (pl_rank pl (ti_full_name ti) < f)%nat ->
    exists b, instance_of f t v s = Ok b s /\ (b = true -> pl_value pl (ti_full_name ti) = true).
  Proof.
    intro V. induction f as [|f IH]; intros t ti E Hf; [lia|]. cbn [instance_of].
    destruct (type_eq_fwd _ _ _ _ E V) as (b & Eb & B). rewrite (bind_ok _ _ _ _ _ Eb). destruct b.
    - exists true. split; [reflexivity|]. intros _. rewrite (proj1 B eq_refl). apply (po_value _ _ PO).
    - assert (T : the_type t s = Ok ti s) by (unfold the_type; fold ts; now rewrite E). rewrite (bind_ok _ _ _ _ _ T).
      destruct (consistent_closed _ _ _ _ W E) as (C1 & C2 & _). destruct (ti_base ti) as [u|] eqn:Eu.
      + destruct (valid_type u (C1 _ eq_refl)) as [ui Hu].
        destruct (pn_base _ _ PL _ _ (nth_error_In _ _ E) Eu) as [R1 R2]. fold ts in R1, R2. rewrite (name_of_at _ _ _ Hu) in R1, R2.
        destruct (IH u ui Hu ltac:(lia)) as (b & Ei & Hb). exists b. split; [exact Ei|]. auto.
      + destruct (contains_fwd _ _ V _ C2) as (b & Ei & Hb). exists b. split; [exact Ei|]. intro X.
        destruct (Hb X) as (i & Hi & Ni). exfalso. exact (pn_interface _ _ PL _ _ (nth_error_In _ _ E) Hi Ni).
  Qed.
  Lemma reference_fwd f t ti : nth_error ts t = Some ti -> (top < f)%nat ->
    exists b, is_reference_type f t s = Ok b s /\ (b = false -> pl_value pl (ti_full_name ti) = true).
  Proof.
    intros E Hf. destruct (named_fwd "System.ValueType") as (v & Ev & Nv); [apply CORE; now left|].
    destruct (instance_fwd v Nv f t ti E) as (b & Eb & B); [pose proof (po_top _ _ PO (ti_full_name ti)); lia|].
    exists (negb b). unfold is_reference_type. rewrite (bind_ok _ _ _ _ _ Ev), (bind_ok _ _ _ _ _ Eb).
    split; [reflexivity|]. intro X. apply B. destruct b; [reflexivity|discriminate].
  Qed.

  Lemma size_fwd : forall r t ti f, nth_error ts t = Some ti -> (pl_rank pl (ti_full_name ti) <= r)%nat -> (r + top + 2 <= f)%nat ->
    exists k, type_size f p t s = Ok k s /\ k <= pl_weight pl (ti_full_name ti).
  Proof.
    induction r as [r IH] using lt_wf_ind. intros t ti f E Hr Hf. destruct f as [|f]; [lia|]. cbn [type_size].
    destruct (try_sizes_fwd t ti E primitive_sizes (fun x k => proj1 (widths_same x k))) as (o & Eo & Ho).
    rewrite (bind_ok _ _ _ _ _ Eo). destruct o as [k|].
    { exists k. split; [reflexivity|]. destruct Ho as (x & Hx & ->). apply (po_width _ _ PO). now apply widths_same. }
    assert (NP : ~ primitive (ti_full_name ti)).
    { intros (x & k & Hx & Nx). apply (Ho x k); [now apply widths_same|exact Nx]. }
    assert (T : the_type t s = Ok ti s) by (unfold the_type; fold ts; now rewrite E). rewrite (bind_ok _ _ _ _ _ T).
    destruct (consistent_closed _ _ _ _ W E) as (C1 & _ & C3). fold ts in C1, C3.
    pose proof (pn_weight _ _ PL _ (nth_error_In _ _ E) NP) as PW. fold ts in PW.
    pose proof (po_word _ _ PO (ti_full_name ti)) as WD.
    set (sl := fun f => if f_static f then 0 else slot pl (name_of ts (f_type f))) in PW.
    set (body := fun (a : N) fi => r <- is_reference_type f (f_type fi) ;; n <- (if r then ret 8 else type_size f p (f_type fi)) ;; ovf (u_add p 64 a n)).
    assert (FOLD : forall l a, (forall x, In x l -> In x (ti_fields ti)) -> a + sum (map sl l) < 2 ^ 64 ->
      exists k, fold_m body a (filter (fun fi => negb (f_static fi)) l) s = Ok k s /\ k <= a + sum (map sl l)).
    { induction l as [|x l IHl]; intros a In_l La; cbn [filter fold_m].
      - exists a. split; [reflexivity|]. cbn. lia.
      - cbn [map sum fold_right] in La. fold (sum (map sl l)) in La. cbn [map sum fold_right]. fold (sum (map sl l)).
        destruct (f_static x) eqn:St; cbn [negb].
        + unfold sl at 1 in La. rewrite St in La. unfold sl at 1. rewrite St. apply IHl; [intros; apply In_l; now right|lia].
        + cbn [fold_m]. unfold body at 1. rewrite Forall_forall in C3. destruct (valid_type _ (C3 _ (In_l x (or_introl eq_refl)))) as [xi Ex].
          destruct (reference_fwd f _ _ Ex ltac:(lia)) as (b & Eb & B).
          assert (Sx : sl x = slot pl (ti_full_name xi)) by (unfold sl; rewrite St; now rewrite (name_of_at _ _ _ Ex)).
          assert (K : exists k, (if b then ret 8 else type_size f p (f_type x)) s = Ok k s /\ k <= sl x).
          { rewrite Sx. unfold slot. destruct b.
            - exists 8. split; [reflexivity|]. destruct (pl_value pl _); lia.
            - rewrite (B eq_refl). pose proof (pn_field _ _ PL _ _ (nth_error_In _ _ E) (In_l x (or_introl eq_refl)) St) as PF.
              fold ts in PF. rewrite (name_of_at _ _ _ Ex) in PF. destruct (PF (B eq_refl)) as [P|P].
              + destruct f as [|f']; [lia|]. cbn [type_size].
                destruct (try_sizes_fwd _ _ Ex primitive_sizes (fun x k => proj1 (widths_same x k))) as (o & Eo' & Ho').
                rewrite (bind_ok _ _ _ _ _ Eo'). destruct o as [k|].
                * exists k. split; [reflexivity|]. destruct Ho' as (y & Hy & Ny). rewrite Ny.
                  pose proof (po_width _ _ PO y k (proj1 (widths_same _ _) Hy)). lia.
                * exfalso. destruct P as (y & k & Hy & Ny). exact (Ho' y k (proj2 (widths_same _ _) Hy) Ny).
              + destruct (IH (pl_rank pl (ti_full_name xi)) ltac:(lia) _ _ f Ex ltac:(lia) ltac:(lia)) as (k & Ek & Lk).
                exists k. split; [exact Ek|]. lia. }
          destruct K as (k & Ek & Lk).
          assert (EB : (r0 <- is_reference_type f (f_type x) ;; n <- (if r0 then ret 8 else type_size f p (f_type x)) ;; ovf (u_add p 64 a n)) s = Ok (a + k) s).
          { rewrite (bind_ok _ _ _ _ _ Eb), (bind_ok _ _ _ _ _ Ek). rewrite u_add_small by lia. reflexivity. }
          rewrite (bind_ok _ _ _ _ _ EB). fold body.
          destruct (IHl (a + k)) as (m & Em & Lm); [intros; apply In_l; now right|lia|]. exists m. split; [exact Em|lia]. }
    destruct (FOLD (ti_fields ti) 0) as (k & Ek & Lk); [auto|lia|].
    rewrite (bind_ok _ _ _ _ _ Ek). destruct (ti_base ti) as [u|] eqn:Eu.
    - destruct (valid_type u (C1 _ eq_refl)) as [ui Hu].
      destruct (pn_base _ _ PL _ _ (nth_error_In _ _ E) Eu) as [R1 _]. fold ts in R1. rewrite (name_of_at _ _ _ Hu) in R1.
      destruct (IH (pl_rank pl (ti_full_name ui)) ltac:(lia) u ui f Hu ltac:(lia) ltac:(lia)) as (m & Em & Lm).
      cbn [option_map base_weight] in PW. rewrite (name_of_at _ _ _ Hu) in PW.
      rewrite (bind_ok _ _ _ _ _ Em). rewrite u_add_small by lia. exists (k + m). split; [reflexivity|lia].
    - exists k. split; [reflexivity|]. lia.
  Qed.
  Lemma type_size_fwd t ti f : nth_error ts t = Some ti -> (top + top + 2 <= f)%nat ->
    exists k, type_size f p t s = Ok k s /\ k <= pl_weight pl (ti_full_name ti).
  Proof. intros E Hf. apply (size_fwd top); [exact E|apply (po_top _ _ PO)|exact Hf]. Qed.
End Sizes.

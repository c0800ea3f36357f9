(** The specification of floating point arithmetic determines the result. *)
From Coq Require Import NArith ZArith Lia Bool.
From Verif Require Import Base BaseFacts SpecExec SpecIeee FloatFacts FloatFields.
Open Scope N_scope.

Section Unique.
  Variables mb eb : N.
  Hypothesis Pmb : 1 <= mb.
  Hypothesis Peb : 2 <= eb.

  (** ** Kinds of numbers *)

  Lemma inf_exponent s : (infinity mb eb s / 2 ^ mb) mod 2 ^ eb = 2 ^ eb - 1 /\ infinity mb eb s mod 2 ^ mb = 0 /\
    negative mb eb (infinity mb eb s) = s /\ in_format mb eb (infinity mb eb s).
  Proof.
    pose proof (p2 eb) as P1. pose proof (p2 mb) as P2.
    assert (X : infinity mb eb s = pack mb eb s (2 ^ eb - 1) 0) by (unfold pack, infinity, zero; lia). rewrite X.
    destruct (pack_fields mb eb Pmb s (2 ^ eb - 1) 0) as (F1 & F2 & F3 & F4 & _); [lia|lia|]. auto.
  Qed.
  Lemma fin_inf s : is_finite mb eb (infinity mb eb s) -> False.
  Proof. intros [_ F]. destruct (inf_exponent s) as [E _]. contradiction. Qed.
  Lemma fin_nan a : is_finite mb eb a -> is_nan mb eb a -> False.
  Proof. intros [_ F] [E _]. contradiction. Qed.
  Lemma inf_nan s : is_nan mb eb (infinity mb eb s) -> False.
  Proof. intros [_ F]. destruct (inf_exponent s) as (_ & M & _). contradiction. Qed.
  Lemma inf_inj s t : infinity mb eb s = infinity mb eb t -> s = t.
  Proof. intro E. destruct (inf_exponent s) as (_ & _ & S & _). destruct (inf_exponent t) as (_ & _ & T & _). congruence. Qed.

  (** ** The order of bit patterns *)

  Definition size (low : N) : N := mag mb (low / 2 ^ mb) (low mod 2 ^ mb).
  Lemma size_mono a b : a < b -> size a < size b.
  Proof.
    intro L. unfold size. pose proof (p2 mb) as P.
    pose proof (N.div_mod a (2 ^ mb) ltac:(lia)) as A. pose proof (N.div_mod b (2 ^ mb) ltac:(lia)) as B.
    assert (Ma : a mod 2 ^ mb < 2 ^ mb) by (apply N.mod_lt; lia). assert (Mb : b mod 2 ^ mb < 2 ^ mb) by (apply N.mod_lt; lia).
    set (qa := a / 2 ^ mb) in *. set (qb := b / 2 ^ mb) in *. set (ra := a mod 2 ^ mb) in *. set (rb := b mod 2 ^ mb) in *.
    clearbody qa qb ra rb.
    destruct (N.lt_trichotomy qa qb) as [K|[K|K]].
    - now apply mag_exponent.
    - subst qb. apply (proj1 (N.compare_lt_iff _ _)). rewrite mag_fraction. apply (proj2 (N.compare_lt_iff _ _)). lia.
    - exfalso. assert (2 ^ mb * (qb + 1) <= 2 ^ mb * qa) by (apply N.mul_le_mono_l; lia). lia.
  Qed.
  Lemma size_low b : measure mb eb b = apply_sign (negative mb eb b) (size (b mod 2 ^ (mb + eb))).
  Proof.
    rewrite measure_fields, N.negb_even. unfold negative, size. f_equal. pose proof (p2 mb) as P1. pose proof (p2 eb) as P2.
    rewrite N.pow_add_r, N.mod_mul_r by lia. f_equal.
    - apply N.div_unique with (r := b mod 2 ^ mb); [apply N.mod_lt; lia|lia].
    - rewrite (N.mul_comm (2 ^ mb)), N.mod_add, N.mod_mod by lia. reflexivity.
  Qed.

  Lemma rounds_unique n d z r r' : (0 < d)%Z -> rounds mb eb n d z r -> rounds mb eb n d z r' -> r = r'.
  Proof.
    intros Pd (R1 & R2 & R3) (Q1 & Q2 & Q3).
    destruct (Z.lt_ge_cases (Z.abs n) (d * limit mb eb)) as [L|L]; [|now rewrite R2, Q2].
    destruct (R1 L) as [F N]. destruct (Q1 L) as [F' N']. clear R1 R2 Q1 Q2.
    assert (S : negative mb eb r = negative mb eb r') by congruence. clear R3 Q3.
    destruct (Z.eq_dec (measure mb eb r) (measure mb eb r')) as [E|E].
    { apply (measure_inj mb eb Pmb); [apply F|apply F'|exact S|exact E]. }
    exfalso.
    (* two even patterns at the same distance: the one between them is nearer *)
    assert (W : forall a b, is_finite mb eb a -> is_finite mb eb b -> negative mb eb a = negative mb eb b ->
              N.even a = true -> N.even b = true -> a mod 2 ^ (mb + eb) < b mod 2 ^ (mb + eb) ->
              exists c, is_finite mb eb c /\ (measure mb eb a < measure mb eb c < measure mb eb b \/ measure mb eb b < measure mb eb c < measure mb eb a)%Z).
    { intros a b Fa Fb Sab Ea Eb Lt. pose proof (p2 (mb + eb)) as P. pose proof (p2 mb) as P1. pose proof (p2 eb) as P2.
      set (la := a mod 2 ^ (mb + eb)) in *. set (lb := b mod 2 ^ (mb + eb)) in *.
      assert (Par : forall x, N.even x = true -> N.even (x mod 2 ^ (mb + eb)) = true).
      { intros x Ev. pose proof (N.div_mod x (2 ^ (mb + eb)) ltac:(lia)) as D. rewrite D in Ev at 1.
        rewrite N.even_add, N.even_mul, N.even_pow in Ev by lia. cbn in Ev. now destruct (N.even (x mod 2 ^ (mb + eb))). }
      assert (Lt2 : la + 1 < lb).
      { apply Par in Ea. apply Par in Eb. fold la in Ea. fold lb in Eb.
        destruct (N.eq_dec (la + 1) lb) as [K|K]; [|lia]. rewrite <- K, N.even_add, Ea in Eb. discriminate. }
      assert (Lb : lb < 2 ^ (mb + eb)) by (apply N.mod_lt; lia).
      set (s := negative mb eb a) in *. set (lc := la + 1) in *.
      set (e := lc / 2 ^ mb). set (m := lc mod 2 ^ mb).
      assert (M : m < 2 ^ mb) by (apply N.mod_lt; lia).
      assert (El : e <= lb / 2 ^ mb) by (apply N.div_le_mono; lia).
      assert (Be : lb / 2 ^ mb = (b / 2 ^ mb) mod 2 ^ eb).
      { unfold lb. rewrite N.pow_add_r, N.mod_mul_r by lia. symmetry. apply N.div_unique with (r := b mod 2 ^ mb); [apply N.mod_lt; lia|lia]. }
      assert (Bl : (b / 2 ^ mb) mod 2 ^ eb < 2 ^ eb - 1).
      { destruct Fb as [_ Fb]. assert ((b / 2 ^ mb) mod 2 ^ eb < 2 ^ eb) by (apply N.mod_lt; lia). lia. }
      rewrite Be in El. clear Be.
      assert (Le : e < 2 ^ eb - 1) by (apply N.le_lt_trans with ((b / 2 ^ mb) mod 2 ^ eb); assumption).
      assert (Le2 : e < 2 ^ eb) by (clear - Le; clearbody e; lia).
      destruct (pack_fields mb eb Pmb s e m M Le2) as (F1 & F2 & F3 & F4 & _).
      exists (pack mb eb s e m). split; [split; [exact F4|rewrite F2; intro K; rewrite K in Le; now apply N.lt_irrefl in Le]|].
      rewrite (measure_pack mb eb Pmb s e m M Le2). rewrite !size_low, <- Sab. fold s la lb.
      change (mag mb e m) with (size lc).
      assert (size la < size lc) by (apply size_mono; unfold lc; lia). assert (size lc < size lb) by (apply size_mono; exact Lt2).
      unfold apply_sign. destruct s; lia. }
    assert (B : (Z.abs (measure mb eb r * d - n) = Z.abs (measure mb eb r' * d - n))%Z).
    { destruct (N r' F') as [X _]. destruct (N' r F) as [Y _]. lia. }
    destruct (N r' F') as [_ T]. destruct (T (eq_sym B)) as [K|Ev]; [congruence|].
    destruct (N' r F) as [_ T']. destruct (T' B) as [K|Ev']; [congruence|].
    assert (X : exists c, is_finite mb eb c /\ (measure mb eb r < measure mb eb c < measure mb eb r' \/ measure mb eb r' < measure mb eb c < measure mb eb r)%Z).
    { destruct (N.lt_trichotomy (r mod 2 ^ (mb + eb)) (r' mod 2 ^ (mb + eb))) as [K|[K|K]].
      - now apply W.
      - exfalso. apply E. rewrite !size_low, S, K. reflexivity.
      - destruct (W r' r F' F (eq_sym S) Ev' Ev K) as (c & Fc & H). exists c. split; [exact Fc|]. tauto. }
    destruct X as (c & Fc & X). destruct (N c Fc) as [Y _].
    set (x := measure mb eb r) in *. set (y := measure mb eb r') in *. set (v := measure mb eb c) in *.
    assert (M1 : (x < v -> x * d < v * d)%Z) by (intro; apply Z.mul_lt_mono_pos_r; assumption).
    assert (M2 : (v < y -> v * d < y * d)%Z) by (intro; apply Z.mul_lt_mono_pos_r; assumption).
    assert (M3 : (y < v -> y * d < v * d)%Z) by (intro; apply Z.mul_lt_mono_pos_r; assumption).
    assert (M4 : (v < x -> v * d < x * d)%Z) by (intro; apply Z.mul_lt_mono_pos_r; assumption).
    set (xd := (x * d)%Z) in *. set (yd := (y * d)%Z) in *. set (vd := (v * d)%Z) in *. clearbody xd yd vd x y v.
    destruct X as [[X1 X2]|[X1 X2]]; [specialize (M1 X1); specialize (M2 X2)|specialize (M3 X1); specialize (M4 X2)]; lia.
  Qed.

  Lemma arithmetic_unique o a b r r' : arithmetic mb eb o a b r -> arithmetic mb eb o a b r' ->
    r = r' \/ (not_a_number mb eb r /\ not_a_number mb eb r').
  Proof.
    intros H H'.
    assert (U : forall x, (0 < 2 ^ Z.of_N x)%Z) by (intro; apply Z.pow_pos_nonneg; lia).
    destruct H; inversion H'; subst; clear H';
      repeat match goal with
        | K : infinity mb eb _ = infinity mb eb _ |- _ => apply inf_inj in K; subst
        | K : is_nan mb eb _ \/ is_nan mb eb _ |- _ => destruct K
        | K : is_finite mb eb (infinity mb eb _) |- _ => destruct (fin_inf _ K)
        | K : is_nan mb eb (infinity mb eb _) |- _ => destruct (inf_nan _ K)
        | K : is_finite mb eb ?x, L : is_nan mb eb ?x |- _ => destruct (fin_nan _ K L)
        end;
      try (left; reflexivity); try (right; split; assumption); try contradiction; try congruence;
      try match goal with K : ?s = negb ?s |- _ => destruct s; discriminate | K : negb ?s = ?s |- _ => destruct s; discriminate end;
      try (left; eapply rounds_unique; [|eassumption|eassumption]; lia);
      try (left; eapply rounds_unique; [|eassumption|eassumption]; apply U).
    left. match goal with F : is_finite mb eb r, F' : is_finite mb eb r' |- _ => apply (measure_inj mb eb Pmb); [apply F|apply F'|congruence|congruence] end.
  Qed.

  Lemma arithmetic_in_format o a b r : arithmetic mb eb o a b r -> in_format mb eb a -> in_format mb eb b -> in_format mb eb r.
  Proof.
    assert (R : forall n d z x, rounds mb eb n d z x -> in_format mb eb x).
    { intros n d z x (R1 & R2 & _). destruct (Z.lt_ge_cases (Z.abs n) (d * limit mb eb)) as [L|L]; [apply (R1 L)|].
      rewrite (R2 L). apply inf_exponent. }
    intros H Ia Ib. destruct H; try (eapply R; eassumption); try apply inf_exponent; try assumption;
      try match goal with K : not_a_number mb eb _ |- _ => apply K | K : is_finite mb eb ?r |- in_format mb eb ?r => apply K end.
    unfold zero. pose proof (p2 mb) as P1. pose proof (p2 eb) as P2. unfold in_format. rewrite !N.pow_add_r. change (2 ^ 1) with 2.
    destruct (xorb _ _); nia.
  Qed.
End Unique.

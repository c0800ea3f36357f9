(** The fields of bit patterns of floating point numbers. *)
From Coq Require Import NArith ZArith Lia Bool.
From Verif Require Import Base BaseFacts SpecExec SpecIeee FloatFacts.
Open Scope N_scope.

Lemma p2 k : 0 < 2 ^ k. Proof. apply N.neq_0_lt_0, N.pow_nonzero. lia. Qed.

Section Fields.
  Variables mb eb : N.
  Hypothesis Pmb : 1 <= mb.

  Definition pack (s : bool) (e m : N) : N := (if s then 2 ^ (mb + eb) else 0) + e * 2 ^ mb + m.

  Lemma pack_fields s e m : m < 2 ^ mb -> e < 2 ^ eb ->
    pack s e m mod 2 ^ mb = m /\ (pack s e m / 2 ^ mb) mod 2 ^ eb = e /\ negative mb eb (pack s e m) = s /\
    in_format mb eb (pack s e m) /\ N.even (pack s e m) = N.even m.
  Proof.
    intros M E. unfold pack. set (b := if s then 1 else 0).
    assert (X : (if s then 2 ^ (mb + eb) else 0) = b * (2 ^ mb * 2 ^ eb)) by (rewrite <- N.pow_add_r; unfold b; destruct s; lia).
    assert (B : b <= 1) by (unfold b; destruct s; lia).
    rewrite X. pose proof (p2 mb) as P1. pose proof (p2 eb) as P2.
    assert (D : (b * (2 ^ mb * 2 ^ eb) + e * 2 ^ mb + m) / 2 ^ mb = b * 2 ^ eb + e) by (symmetry; apply N.div_unique with (r := m); [exact M|ring]).
    split; [symmetry; apply N.mod_unique with (q := b * 2 ^ eb + e); [exact M|ring]|].
    split; [rewrite D; symmetry; apply N.mod_unique with (q := b); [exact E|ring]|].
    split.
    { unfold negative. rewrite N.pow_add_r. replace ((b * (2 ^ mb * 2 ^ eb) + e * 2 ^ mb + m) / (2 ^ mb * 2 ^ eb)) with b.
      - unfold b. now destruct s.
      - apply N.div_unique with (r := e * 2 ^ mb + m); [nia|ring]. }
    split.
    - unfold in_format. rewrite !N.pow_add_r. change (2 ^ 1) with 2. nia.
    - replace (b * (2 ^ mb * 2 ^ eb) + e * 2 ^ mb + m) with (m + 2 * (2 ^ (mb - 1) * (b * 2 ^ eb + e))).
      + rewrite N.even_add, N.even_mul. cbn. now destruct (N.even m).
      + replace (2 ^ mb) with (2 * 2 ^ (mb - 1)); [ring|]. rewrite <- N.pow_succ_r'. f_equal. lia.
  Qed.

  Lemma unpack b : in_format mb eb b -> b = pack (negative mb eb b) ((b / 2 ^ mb) mod 2 ^ eb) (b mod 2 ^ mb).
  Proof.
    unfold in_format, pack, negative. rewrite !N.pow_add_r. change (2 ^ 1) with 2. intro L.
    pose proof (p2 mb) as P1. pose proof (p2 eb) as P2.
    rewrite <- N.div_div by lia.
    pose proof (N.div_mod b (2 ^ mb) ltac:(lia)) as D1. pose proof (N.div_mod (b / 2 ^ mb) (2 ^ eb) ltac:(lia)) as D2.
    set (q := b / 2 ^ mb) in *. set (m := b mod 2 ^ mb) in *. set (e := q mod 2 ^ eb) in *. set (t := q / 2 ^ eb) in *.
    assert (T : t < 2) by (unfold t, q; rewrite N.div_div by lia; apply N.div_lt_upper_bound; lia).
    assert (T1 : t = 0 \/ t = 1) by lia.
    assert (Eb : b = 2 ^ mb * (2 ^ eb * t + e) + m) by (rewrite <- D2; exact D1).
    clearbody t e m. clear - Eb T1. subst b. destruct T1 as [T1|T1]; subst t; [change (N.odd 0) with false|change (N.odd 1) with true]; cbv iota; ring.
  Qed.

  Lemma measure_pack s e m : m < 2 ^ mb -> e < 2 ^ eb -> measure mb eb (pack s e m) = apply_sign s (mag mb e m).
  Proof.
    intros M E. destruct (pack_fields s e m M E) as (F1 & F2 & F3 & _). rewrite measure_fields, F1, F2.
    unfold negative in F3. now rewrite N.negb_even, F3.
  Qed.

  (** A finite number has one bit pattern for each sign. *)
  Lemma measure_inj a b : in_format mb eb a -> in_format mb eb b -> negative mb eb a = negative mb eb b ->
    measure mb eb a = measure mb eb b -> a = b.
  Proof.
    intros Ia Ib S M. rewrite (unpack a Ia), (unpack b Ib), S. rewrite !measure_fields, !N.negb_even in M.
    unfold negative in S. rewrite S in M.
    assert (Q : mag mb ((a / 2 ^ mb) mod 2 ^ eb) (a mod 2 ^ mb) = mag mb ((b / 2 ^ mb) mod 2 ^ eb) (b mod 2 ^ mb)).
    { unfold apply_sign in M. destruct (N.odd (b / 2 ^ (mb + eb))); lia. }
    assert (L : forall x, x mod 2 ^ mb < 2 ^ mb) by (intro; apply N.mod_lt, N.pow_nonzero; lia).
    pose proof (L a) as La. pose proof (L b) as Lb. clear L M S.
    set (e := (a / 2 ^ mb) mod 2 ^ eb) in *. set (e' := (b / 2 ^ mb) mod 2 ^ eb) in *. set (m := a mod 2 ^ mb) in *. set (m' := b mod 2 ^ mb) in *.
    destruct (N.lt_trichotomy e e') as [K|[K|K]].
    - pose proof (mag_exponent mb e e' m m' La K) as H. rewrite Q in H. now apply N.lt_irrefl in H.
    - rewrite K in *. pose proof (mag_fraction mb e' m m') as H. rewrite Q, N.compare_refl in H. symmetry in H.
      apply N.compare_eq_iff in H. now rewrite H.
    - pose proof (mag_exponent mb e' e m' m Lb K) as H. rewrite Q in H. now apply N.lt_irrefl in H.
  Qed.
End Fields.

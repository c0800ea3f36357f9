(** Rounding: what [binary_round_aux] of the standard library computes, in integers. *)
From Coq Require Import ZArith Lia Bool SpecFloat.
Open Scope Z_scope.

Lemma digits_bound p : 2 ^ (Zpos (digits2_pos p) - 1) <= Zpos p < 2 ^ Zpos (digits2_pos p).
Proof.
  induction p as [p IH|p IH|]; cbn [digits2_pos].
  - rewrite Pos2Z.inj_succ. replace (Z.succ (Z.pos (digits2_pos p)) - 1) with (Z.succ (Z.pos (digits2_pos p) - 1)) by lia.
    rewrite !Z.pow_succ_r by lia. lia.
  - rewrite Pos2Z.inj_succ. replace (Z.succ (Z.pos (digits2_pos p)) - 1) with (Z.succ (Z.pos (digits2_pos p) - 1)) by lia.
    rewrite !Z.pow_succ_r by lia. lia.
  - cbn. lia.
Qed.
Lemma Zdigits_bound m : 0 < m -> 2 ^ (Zdigits2 m - 1) <= m < 2 ^ Zdigits2 m.
Proof. destruct m as [|p|p]; try lia. intros _. apply digits_bound. Qed.
Lemma Zdigits_pos m : 0 < m -> 1 <= Zdigits2 m. Proof. destruct m; cbn; lia. Qed.
Lemma digits_unique m d : 0 < m -> 1 <= d -> 2 ^ (d - 1) <= m < 2 ^ d -> Zdigits2 m = d.
Proof.
  intros P D [A B]. destruct (Zdigits_bound m P) as [C E]. pose proof (Zdigits_pos m P).
  destruct (Z.lt_trichotomy (Zdigits2 m) d) as [L|[L|L]]; [|exact L|].
  - assert (2 ^ Zdigits2 m <= 2 ^ (d - 1)) by (apply Z.pow_le_mono_r; lia). lia.
  - assert (2 ^ d <= 2 ^ (Zdigits2 m - 1)) by (apply Z.pow_le_mono_r; lia). lia.
Qed.

(** ** Shifting *)

(** The record describes the fraction [n / d]. *)
Definition located (r : shr_record) (n d : Z) : Prop :=
  shr_m r = n / d /\ shr_r r = (d <=? 2 * (n mod d)) /\ shr_s r = negb ((n mod d =? 0) || (2 * (n mod d) =? d)).

Lemma shr_1_run m r s : 0 <= m -> shr_1 (Build_shr_record m r s) = Build_shr_record (m / 2) (Z.odd m) (r || s).
Proof.
  intro P. destruct m as [|[p|p|]|p]; cbn [shr_1 Z.odd]; try reflexivity; try lia.
  - f_equal. change (Z.pos p~1) with (2 * Z.pos p + 1). apply Z.div_unique with (r := 1); lia.
  - f_equal. change (Z.pos p~0) with (2 * Z.pos p). apply Z.div_unique with (r := 0); lia.
Qed.
Lemma split_mod n d : 0 < d -> n = d * (n / d) + n mod d /\ 0 <= n mod d < d.
Proof. intro P. split; [apply Z.div_mod; lia|now apply Z.mod_pos_bound]. Qed.
Lemma located_2 mrs n d : 0 <= n -> 0 < d -> located mrs n d -> located (shr_1 mrs) n (2 * d).
Proof.
  intros Pn Pd (M & R & S). destruct mrs as [m r s]. cbn [shr_m shr_r shr_s] in M, R, S. subst.
  rewrite shr_1_run by (apply Z.div_pos; lia). unfold located. cbn [shr_m shr_r shr_s].
  destruct (split_mod n d Pd) as [E B]. set (q := n / d) in *. set (k := n mod d) in *.
  pose proof (Z.div_mod q 2 ltac:(lia)) as Q. pose proof (Zmod_odd q) as O. rewrite O in Q.
  set (b := if Z.odd q then 1 else 0) in *. assert (Hb : 0 <= b <= 1) by (unfold b; destruct (Z.odd q); lia).
  assert (D2 : n / (2 * d) = q / 2 /\ n mod (2 * d) = b * d + k).
  { assert (X : n = 2 * d * (q / 2) + (b * d + k)) by nia. split; symmetry; [eapply Z.div_unique|eapply Z.mod_unique]; eauto; left; nia. }
  destruct D2 as [-> ->]. split; [reflexivity|]. split.
  - unfold b. destruct (Z.odd q); symmetry; [apply Z.leb_le|apply Z.leb_gt]; lia.
  - unfold b. destruct (Z.odd q);
      repeat match goal with |- context [?x =? ?y] => destruct (Z.eqb_spec x y) | |- context [?x <=? ?y] => destruct (Z.leb_spec x y) end;
      cbn; try reflexivity; exfalso; lia.
Qed.
Lemma located_iter p : forall mrs n d, 0 <= n -> 0 < d -> located mrs n d -> located (iter_pos shr_1 p mrs) n (2 ^ Zpos p * d).
Proof.
  induction p as [p IH|p IH|]; intros mrs n d Pn Pd L; cbn [iter_pos].
  - replace (2 ^ Zpos p~1 * d) with (2 ^ Zpos p * (2 ^ Zpos p * (2 * d))).
    2:{ change (Z.pos p~1) with (2 * Z.pos p + 1). replace (2 * Z.pos p + 1) with (Z.pos p + Z.pos p + 1) by lia. rewrite !Z.pow_add_r by lia. ring. }
    assert (0 < 2 ^ Zpos p) by (apply Z.pow_pos_nonneg; lia).
    apply IH; [lia|nia|]. apply IH; [lia|lia|]. now apply located_2.
  - replace (2 ^ Zpos p~0 * d) with (2 ^ Zpos p * (2 ^ Zpos p * d)).
    2:{ change (Z.pos p~0) with (2 * Z.pos p). replace (2 * Z.pos p) with (Z.pos p + Z.pos p) by lia. rewrite !Z.pow_add_r by lia. ring. }
    assert (0 < 2 ^ Zpos p) by (apply Z.pow_pos_nonneg; lia).
    apply IH; [lia|nia|]. now apply IH.
  - change (2 ^ 1 * d) with (2 * d). now apply located_2.
Qed.
Lemma located_shr mrs n d e k : 0 <= n -> 0 < d -> 0 <= k -> located mrs n d ->
  snd (shr mrs e k) = e + k /\ located (fst (shr mrs e k)) n (2 ^ k * d).
Proof.
  intros Pn Pd Pk L. destruct k as [|p|p]; cbn [shr fst snd]; try lia.
  - split; [lia|]. change (2 ^ 0 * d) with (1 * d). now rewrite Z.mul_1_l.
  - split; [reflexivity|]. now apply located_iter.
Qed.
Lemma located_exact m : located (shr_record_of_loc m loc_Exact) m 1.
Proof. unfold located. cbn [shr_record_of_loc shr_m shr_r shr_s]. rewrite Z.div_1_r, Z.mod_1_r. repeat split. Qed.

(** ** Rounding *)

Section Round.
  Variables prec emax : Z.
  Let emin := 3 - emax - prec.
  Hypothesis Hp : 2 <= prec.

  Lemma fexp_mono a b : a <= b -> fexp prec emax a <= fexp prec emax b. Proof. unfold fexp. lia. Qed.

  (** Of the neighbours of [n / d], the nearest, or the even one. *)
  Definition nearest_even (n d m : Z) : Prop :=
    (m = n / d \/ m = n / d + 1) /\
    (2 * (n mod d) < d -> m = n / d) /\ (d < 2 * (n mod d) -> m = n / d + 1) /\ (2 * (n mod d) = d -> Z.even m = true).

  Lemma rounded mrs n d : 0 < d -> located mrs n d -> nearest_even n d (round_nearest_even (shr_m mrs) (loc_of_shr_record mrs)).
  Proof.
    intros Pd (M & R & S). destruct mrs as [m r s]. cbn [shr_m shr_r shr_s] in M, R, S. cbn [shr_m].
    destruct (split_mod n d Pd) as [_ B]. set (k := n mod d) in *. unfold nearest_even. fold k. rewrite <- M.
    destruct (Z.leb_spec d (2 * k)) as [X|X]; subst r.
    - destruct (Z.eqb_spec k 0) as [K|K]; [lia|]. destruct (Z.eqb_spec (2 * k) d) as [K2|K2]; subst s; cbn [loc_of_shr_record round_nearest_even negb orb].
      + destruct (Z.even m) eqn:Ev; repeat split; auto; try lia. intros _. now rewrite Z.even_add, Ev.
      + repeat split; auto; lia.
    - destruct (Z.eqb_spec k 0) as [K|K].
      + subst s. cbn [loc_of_shr_record round_nearest_even negb orb]. repeat split; auto; lia.
      + destruct (Z.eqb_spec (2 * k) d) as [K2|K2]; [lia|]. subst s. cbn [loc_of_shr_record round_nearest_even negb orb]. repeat split; auto; lia.
  Qed.

  (** The exponent of the result, before a carry. *)
  Definition scale (mx ex : Z) : Z := fexp prec emax (Zdigits2 mx + ex).

  Lemma round_aux_run s mx ex lx n d : 0 <= n -> 0 < d -> mx = n / d -> located (shr_record_of_loc mx lx) n d -> ex <= scale mx ex ->
    let E := scale mx ex in let d' := 2 ^ (E - ex) * d in
    0 < d' /\ emin <= E /\ 0 <= n / d' < 2 ^ prec /\ (E = emin \/ 2 ^ (prec - 1) <= n / d') /\
    exists m, nearest_even n d' m /\
      binary_round_aux prec emax s mx ex lx =
        (if m =? 0 then S754_zero s
         else if m =? 2 ^ prec then
           (if E + 1 <=? emax - prec then S754_finite s (Z.to_pos (2 ^ (prec - 1))) (E + 1) else S754_infinity s)
         else if E <=? emax - prec then S754_finite s (Z.to_pos m) E else S754_infinity s).
  Proof.
    intros Pn Pd Mx L Le E d'.
    assert (P2 : 0 < 2 ^ (E - ex)) by (apply Z.pow_pos_nonneg; unfold E; lia).
    assert (Pd' : 0 < d') by (unfold d'; nia).
    assert (Em : emin <= E) by (unfold E, scale, fexp, emin, SpecFloat.emin; lia).
    assert (Q : n / d' = mx / 2 ^ (E - ex)) by (unfold d'; rewrite Z.mul_comm, Mx, Z.div_div by lia; reflexivity).
    assert (Pm : 0 <= mx) by (rewrite Mx; apply Z.div_pos; lia).
    assert (B : 0 <= n / d' < 2 ^ prec).
    { rewrite Q. split; [apply Z.div_pos; lia|]. apply Z.div_lt_upper_bound; [lia|].
      destruct (Z.eq_dec mx 0) as [->|Z0]; [assert (0 < 2 ^ prec) by (apply Z.pow_pos_nonneg; lia); nia|].
      destruct (Zdigits_bound mx ltac:(lia)) as [_ U]. eapply Z.lt_le_trans; [exact U|]. rewrite <- Z.pow_add_r by (unfold E in *; lia).
      apply Z.pow_le_mono_r; [lia|]. unfold E, scale, fexp. lia. }
    assert (B2 : E = emin \/ 2 ^ (prec - 1) <= n / d').
    { destruct (Z.eq_dec E emin) as [X|X]; [now left|right]. rewrite Q.
      assert (E1 : E = Zdigits2 mx + ex - prec) by (unfold E, scale, fexp, emin, SpecFloat.emin in *; lia).
      destruct (Z.eq_dec mx 0) as [Z0|Z0]; [rewrite Z0 in E1; cbn in E1; unfold E in *; lia|].
      destruct (Zdigits_bound mx ltac:(lia)) as [U _]. apply Z.div_le_lower_bound; [lia|]. rewrite <- Z.pow_add_r by (unfold E in *; lia).
      replace (E - ex + (prec - 1)) with (Zdigits2 mx - 1) by lia. exact U. }
    split; [exact Pd'|]. split; [exact Em|]. split; [exact B|]. split; [exact B2|].
    unfold binary_round_aux, shr_fexp. fold (scale mx ex). fold E.
    destruct (located_shr _ n d ex (E - ex) Pn Pd ltac:(unfold E; lia) L) as [E1 L1].
    destruct (shr (shr_record_of_loc mx lx) ex (E - ex)) as [mrs e1]. cbn [fst snd] in E1, L1. fold d' in L1.
    replace e1 with E by lia. clear e1 E1.
    pose proof (rounded mrs n d' Pd' L1) as NE. set (m := round_nearest_even (shr_m mrs) (loc_of_shr_record mrs)) in *.
    exists m. split; [exact NE|]. destruct NE as [NE _].
    assert (P2p : 0 < 2 ^ prec) by (apply Z.pow_pos_nonneg; lia).
    destruct (Z.eqb_spec m 0) as [Z0|Z0].
    - rewrite Z0. cbn [Zdigits2]. unfold shr_record_of_loc.
      assert (X : fexp prec emax (0 + E) - E <= 0) by (unfold fexp, emin, SpecFloat.emin in *; lia).
      destruct (fexp prec emax (0 + E) - E); try lia; reflexivity.
    - assert (Pm' : 0 < m) by lia. destruct (Z.eqb_spec m (2 ^ prec)) as [M|M].
      + assert (Dg : Zdigits2 m = prec + 1).
        { apply digits_unique; [lia|lia|]. replace (prec + 1 - 1) with prec by lia. rewrite Z.pow_add_r by lia. lia. }
        rewrite Dg. replace (fexp prec emax (prec + 1 + E) - E) with 1 by (unfold fexp, emin, SpecFloat.emin in *; lia).
        cbn [shr iter_pos shr_record_of_loc]. rewrite shr_1_run by lia. cbn [shr_m].
        assert (H2 : m / 2 = 2 ^ (prec - 1)).
        { rewrite M. replace prec with (1 + (prec - 1)) at 1 by lia. rewrite Z.pow_add_r by lia. change (2 ^ 1) with 2.
          rewrite Z.mul_comm, Z.div_mul by lia. reflexivity. }
        rewrite H2. assert (0 < 2 ^ (prec - 1)) by (apply Z.pow_pos_nonneg; lia). destruct (2 ^ (prec - 1)); try lia. reflexivity.
      + assert (Dg : Zdigits2 m <= prec).
        { destruct (Zdigits_bound m Pm') as [U _]. destruct (Z.le_gt_cases (Zdigits2 m) prec) as [X|X]; [exact X|].
          assert (2 ^ prec <= 2 ^ (Zdigits2 m - 1)) by (apply Z.pow_le_mono_r; lia). lia. }
        assert (X : fexp prec emax (Zdigits2 m + E) - E <= 0) by (unfold fexp, emin, SpecFloat.emin in *; lia).
        unfold shr_record_of_loc. destruct m as [|pm|pm]; try lia.
        destruct (fexp prec emax (Zdigits2 (Z.pos pm) + E) - E); try lia; cbn [shr shr_m]; reflexivity.
  Qed.

  (** ** The nearest number *)

  (** Integers that stand for the numbers of the format, in units of the smallest one. *)
  Definition representable (y : Z) : Prop := exists m k, Z.abs y = m * 2 ^ k /\ 0 <= m < 2 ^ prec /\ 0 <= k.
  Definition top : Z := emax - prec - emin.

  Lemma gap m1 j y : 0 <= j -> 0 <= m1 < 2 ^ prec -> (j = 0 \/ 2 ^ (prec - 1) <= m1) -> representable y ->
    y <= m1 * 2 ^ j \/ (m1 + 1) * 2 ^ j <= y.
  Proof.
    intros Pj B1 B2 (m & k & Ey & Bm & Pk). assert (P : 0 < 2 ^ j) by (apply Z.pow_pos_nonneg; lia).
    destruct (Z.le_gt_cases y 0) as [N|N]; [left; nia|]. rewrite Z.abs_eq in Ey by lia.
    destruct (Z.le_gt_cases j k) as [L|L].
    - assert (Eq : y = m * 2 ^ (k - j) * 2 ^ j) by (rewrite Ey; rewrite <- Z.mul_assoc, <- Z.pow_add_r by lia; f_equal; f_equal; lia).
      rewrite Eq. destruct (Z.le_gt_cases (m * 2 ^ (k - j)) m1) as [X|X]; [left|right]; apply Z.mul_le_mono_nonneg_r; lia.
    - left. destruct B2 as [B2|B2]; [lia|]. rewrite Ey.
      assert (m * 2 ^ k <= 2 ^ prec * 2 ^ (j - 1)).
      { apply Z.mul_le_mono_nonneg; [lia|lia|apply Z.pow_nonneg; lia|apply Z.pow_le_mono_r; lia]. }
      assert (2 ^ prec * 2 ^ (j - 1) = 2 ^ (prec - 1) * 2 ^ j) by (rewrite <- !Z.pow_add_r by lia; f_equal; lia).
      assert (2 ^ (prec - 1) * 2 ^ j <= m1 * 2 ^ j) by (apply Z.mul_le_mono_nonneg_r; lia). lia.
  Qed.

  (** [n / d] is [N / D] units of [2 ^ j]. *)
  Lemma remainder n d N D j : 0 < d -> 0 < D -> 0 <= j -> n * D = N * d * 2 ^ j ->
    let P := d * 2 ^ j in exists t, 0 < P /\ n = N / D * P + t /\ 0 <= t < P /\
      (2 * (N mod D) < D <-> 2 * t < P) /\ (D < 2 * (N mod D) <-> P < 2 * t) /\ (2 * (N mod D) = D <-> 2 * t = P).
  Proof.
    intros Pd PD Pj Eq P. assert (P2 : 0 < 2 ^ j) by (apply Z.pow_pos_nonneg; lia). assert (PP : 0 < P) by (unfold P; nia).
    destruct (split_mod N D PD) as [E B]. set (q := N / D) in *. set (k := N mod D) in *.
    assert (T : D * (n - q * P) = k * P) by (unfold P; nia). set (t := n - q * P) in *. exists t.
    split; [exact PP|]. split; [unfold t; lia|].
    split; [nia|]. split; [|split]; split; intro; nia.
  Qed.

  Lemma nearest_of n d N D j m y : 0 < d -> 0 < D -> 0 <= j -> n * D = N * d * 2 ^ j -> nearest_even N D m ->
    (y <= N / D * 2 ^ j \/ (N / D + 1) * 2 ^ j <= y) ->
    Z.abs (m * 2 ^ j * d - n) <= Z.abs (y * d - n) /\
    (Z.abs (y * d - n) = Z.abs (m * 2 ^ j * d - n) -> y = m * 2 ^ j \/ Z.even m = true).
  Proof.
    intros Pd PD Pj Eq (M & L & G & T) Y.
    destruct (remainder n d N D j Pd PD Pj Eq) as (t & PP & En & Bt & Lt & Gt & Et). set (P := d * 2 ^ j) in *.
    set (q := N / D) in *. set (k := N mod D) in *.
    assert (Em : m * 2 ^ j * d = m * P) by (unfold P; ring). rewrite Em.
    assert (Ye : y = m * 2 ^ j <-> y * d = m * P).
    { unfold P. split; [intros ->; ring|]. intro X. apply Z.mul_reg_r with (p := d); [lia|]. rewrite X. ring. }
    rewrite Ye. clear Ye Em.
    assert (Y2 : y * d <= q * P \/ (q + 1) * P <= y * d).
    { destruct Y as [Y|Y]; [left|right]; (eapply Z.mul_le_mono_nonneg_r with (p := d) in Y; [|lia]); unfold P;
        [rewrite (Z.mul_comm d), Z.mul_assoc|rewrite (Z.mul_comm d), Z.mul_assoc]; exact Y. }
    set (z := y * d) in *. assert (D1 : (q + 1) * P = q * P + P) by ring. rewrite D1 in Y2.
    destruct M as [->| ->]; [|rewrite D1 in *]; set (qp := q * P) in *;
      destruct (Z.lt_trichotomy (2 * k) D) as [C|[C|C]];
      pose proof (proj1 Lt) as L1; pose proof (proj1 Gt) as G1; pose proof (proj1 Et) as T1;
      try specialize (L C); try specialize (G C); try specialize (T C); try specialize (L1 C); try specialize (G1 C); try specialize (T1 C);
      try lia; split; try lia; intro; try (right; exact T); left; lia.
  Qed.

  (** ** The rounded number *)

  Hypothesis He : 2 <= emax.
  Hypothesis He0 : emin <= 0.

  (** The numbers of the format, and how many units each one is. *)
  Definition valid (x : spec_float) : Prop :=
    match x with
    | S754_zero _ => True
    | S754_finite _ m e => emin <= e <= emax - prec /\ Zpos m < 2 ^ prec /\ (e = emin \/ 2 ^ (prec - 1) <= Zpos m)
    | _ => False
    end.
  Definition amount (x : spec_float) : Z := match x with S754_finite _ m e => Zpos m * 2 ^ (e - emin) | _ => 0 end.
  Definition sign_of (x : spec_float) : bool :=
    match x with S754_zero s | S754_infinity s | S754_finite s _ _ => s | S754_nan => false end.
  Definition even_of (x : spec_float) : bool := match x with S754_finite _ m _ => Z.even (Zpos m) | _ => true end.
  (** The first value that is too large. *)
  Definition bound : Z := (2 ^ (prec + 1) - 1) * 2 ^ (top - 1).

  Lemma pow_pos k : 0 <= k -> 0 < 2 ^ k. Proof. intro. apply Z.pow_pos_nonneg; lia. Qed.
  Lemma pow_double k : 0 < k -> 2 ^ k = 2 * 2 ^ (k - 1).
  Proof. intro. replace k with (1 + (k - 1)) at 1 by lia. rewrite Z.pow_add_r by lia. reflexivity. Qed.

  Definition correct (r : spec_float) (s : bool) (n d : Z) : Prop :=
    (n < d * bound -> valid r /\ sign_of r = s /\
       forall y, representable y -> Z.abs (amount r * d - n) <= Z.abs (y * d - n) /\
         (Z.abs (y * d - n) = Z.abs (amount r * d - n) -> y = amount r \/ even_of r = true)) /\
    (d * bound <= n -> r = S754_infinity s).

  (** [n / d] units are [N / D] times two to the power [ex]. *)
  Definition same_value (n d N D ex : Z) : Prop :=
    exists a b, 0 <= a /\ 0 <= b /\ ex - emin = b - a /\ n * D * 2 ^ a = N * d * 2 ^ b.

  Lemma round_correct s mx ex lx N D n d : 0 <= N -> 0 < D -> 0 < d -> mx = N / D ->
    located (shr_record_of_loc mx lx) N D -> ex <= scale mx ex -> same_value n d N D ex ->
    correct (binary_round_aux prec emax s mx ex lx) s n d.
  Proof.
    intros PN PD Pd Mx L Le (a & b & Pa & Pb & Eab & Eq).
    destruct (round_aux_run s mx ex lx N D PN PD Mx L Le) as (PD' & Em & B1 & B2 & m & NE & R).
    set (E := scale mx ex) in *. set (D' := 2 ^ (E - ex) * D) in *. set (j := E - emin) in *.
    assert (Pj : 0 <= j) by (unfold j; lia).
    assert (Eq' : n * D' = N * d * 2 ^ j).
    { pose proof (pow_pos a Pa). apply Z.mul_reg_r with (p := 2 ^ a); [lia|].
      assert (X : 2 ^ j * 2 ^ a = 2 ^ b * 2 ^ (E - ex)) by (rewrite <- !Z.pow_add_r by lia; f_equal; unfold j; lia).
      unfold D'. transitivity (n * D * 2 ^ a * 2 ^ (E - ex)); [ring|]. rewrite Eq.
      transitivity (N * d * (2 ^ b * 2 ^ (E - ex))); [ring|]. rewrite <- X. ring. }
    assert (B3 : j = 0 \/ 2 ^ (prec - 1) <= N / D') by (unfold j; destruct B2; [left; lia|now right]).
    destruct (remainder n d N D' j Pd PD' Pj Eq') as (t & PP & En & Bt & Lt & Gt & Et). set (P := d * 2 ^ j) in *.
    assert (Near : forall y, representable y -> Z.abs (m * 2 ^ j * d - n) <= Z.abs (y * d - n) /\
              (Z.abs (y * d - n) = Z.abs (m * 2 ^ j * d - n) -> y = m * 2 ^ j \/ Z.even m = true)).
    { intros y Y. apply (nearest_of n d N D' j m y Pd PD' Pj Eq' NE). apply gap; auto. }
    pose proof NE as (M & NL & NG & NT). set (q := N / D') in *. set (k := N mod D') in *.
    pose proof (pow_pos (prec - 1) ltac:(lia)) as Pp1. pose proof (pow_double prec ltac:(lia)) as Pp.
    pose proof (pow_double (prec - 1) ltac:(lia)) as Pp2. pose proof (pow_pos (prec - 1 - 1) ltac:(lia)) as Pp3.
    assert (Pt : 1 <= top) by (unfold top, emin; lia).
    pose proof (pow_pos (top - 1) ltac:(lia)) as PT. pose proof (pow_double top ltac:(lia)) as PT2.
    assert (Bd : bound = (2 * 2 ^ prec - 1) * 2 ^ (top - 1)).
    { unfold bound. replace (prec + 1) with (1 + prec) by lia. rewrite Z.pow_add_r by lia. reflexivity. }
    assert (Small : j <= top - 1 -> n < d * bound).
    { intro Lj. assert (Pw : 2 ^ j <= 2 ^ (top - 1)) by (apply Z.pow_le_mono_r; lia).
      assert (n < (q + 1) * P) by lia. assert ((q + 1) * P <= 2 ^ prec * P) by (apply Z.mul_le_mono_nonneg_r; lia).
      assert (2 ^ prec * P <= 2 ^ prec * (d * 2 ^ (top - 1))) by (unfold P; apply Z.mul_le_mono_nonneg_l; [lia|apply Z.mul_le_mono_nonneg_l; lia]).
      rewrite Bd. replace (d * ((2 * 2 ^ prec - 1) * 2 ^ (top - 1))) with ((2 * 2 ^ prec - 1) * (d * 2 ^ (top - 1))) by ring.
      assert (0 < d * 2 ^ (top - 1)) by (apply Z.mul_pos_pos; lia).
      assert (2 ^ prec * (d * 2 ^ (top - 1)) <= (2 * 2 ^ prec - 1) * (d * 2 ^ (top - 1))) by (apply Z.mul_le_mono_nonneg_r; lia). lia. }
    assert (Big : top < j -> d * bound <= n).
    { intro Lj. assert (Pw : 2 ^ (top + 1) <= 2 ^ j) by (apply Z.pow_le_mono_r; lia).
      assert (2 ^ (prec - 1) <= q) by (destruct B3; [lia|assumption]).
      assert (2 ^ (prec - 1) * P <= q * P) by (apply Z.mul_le_mono_nonneg_r; lia).
      assert (2 ^ (prec - 1) * (d * 2 ^ (top + 1)) <= 2 ^ (prec - 1) * P) by (unfold P; apply Z.mul_le_mono_nonneg_l; [lia|apply Z.mul_le_mono_nonneg_l; lia]).
      assert (2 ^ (prec - 1) * (d * 2 ^ (top + 1)) = 2 * 2 ^ prec * (d * 2 ^ (top - 1))).
      { rewrite Pp. replace (top + 1) with (1 + top) by lia. rewrite (Z.pow_add_r 2 1 top), PT2 by lia. ring. }
      rewrite Bd. replace (d * ((2 * 2 ^ prec - 1) * 2 ^ (top - 1))) with ((2 * 2 ^ prec - 1) * (d * 2 ^ (top - 1))) by ring.
      assert (0 < d * 2 ^ (top - 1)) by (apply Z.mul_pos_pos; lia).
      rewrite Z.mul_sub_distr_r. clear - H H0 H1 H2 H3 En Bt. lia. }
    assert (Edge : j = top -> (d * bound <= n <-> m = 2 ^ prec)).
    { intro Ej. assert (P2 : P = 2 * (d * 2 ^ (top - 1))) by (unfold P; rewrite Ej, PT2; ring).
      assert (X : d * bound = 2 ^ prec * P - d * 2 ^ (top - 1)) by (rewrite Bd, P2; ring). rewrite X.
      set (h := d * 2 ^ (top - 1)) in *. assert (Ph : 0 < h) by (unfold h; apply Z.mul_pos_pos; lia).
      destruct (Z.eq_dec q (2 ^ prec - 1)) as [Q|Q].
      - assert (Y : 2 ^ prec * P - h <= n <-> P <= 2 * t) by (rewrite En, Q, Z.mul_sub_distr_r; clear - P2 Ph Bt; lia). rewrite Y.
        destruct (Z.lt_trichotomy (2 * k) D') as [C|[C|C]].
        + rewrite (NL C). apply Lt in C. lia.
        + pose proof (NT C) as Ev. apply Et in C. split; [|lia]. intros _. destruct M as [M|M]; [|lia].
          exfalso. rewrite M, Q, Pp in Ev. rewrite Z.even_sub, Z.even_mul in Ev. discriminate.
        + rewrite (NG C). apply Gt in C. lia.
      - split; [|lia]. intro Y. exfalso. assert (q + 1 <= 2 ^ prec - 1) by lia.
        assert ((q + 1) * P <= (2 ^ prec - 1) * P) by (apply Z.mul_le_mono_nonneg_r; lia).
        rewrite Z.mul_sub_distr_r, Z.mul_add_distr_r in *. clear - H0 En Bt Y P2 Ph. lia. }
    assert (ET : E + 1 <= emax - prec <-> j <= top - 1) by (unfold j, top; lia).
    assert (ET2 : E <= emax - prec <-> j <= top) by (unfold j, top; lia).
    rewrite R. clear R. unfold correct. clear Lt Gt Et NL NG NT NE En Bt Eq Eq' PT PT2 Bd Eab L PN PD PD' PP Mx Le.
    destruct (Z.eqb_spec m 0) as [M0|M0].
    - assert (j = 0) by (destruct B3; [assumption|lia]).
      split; [|intro; lia]. intros _. cbn [valid sign_of amount even_of]. split; [exact Logic.I|]. split; [reflexivity|].
      intros y Y. destruct (Near y Y) as [N1 N2]. rewrite M0 in *. split; [exact N1|]. now right.
    - assert (Pm : 0 < m) by lia. destruct (Z.eqb_spec m (2 ^ prec)) as [M1|M1].
      + destruct (Z.leb_spec (E + 1) (emax - prec)) as [X|X].
        * split; [|intro; apply ET in X; lia]. intros _. cbn [valid sign_of amount even_of]. rewrite Z2Pos.id by lia.
          split; [split; [lia|]; split; [lia|]; right; lia|]. split; [reflexivity|].
          assert (V : 2 ^ (prec - 1) * 2 ^ (E + 1 - emin) = m * 2 ^ j).
          { rewrite M1, Pp. replace (E + 1 - emin) with (1 + j) by (unfold j; lia). rewrite (Z.pow_add_r 2 1 j) by lia. ring. }
          rewrite V. intros y Y. destruct (Near y Y) as [N1 N2]. split; [exact N1|]. intro Q. right.
          rewrite Pp2. now rewrite Z.even_mul.
        * split; [|reflexivity]. intro Q. exfalso. destruct (Z.eq_dec j top) as [Ej|Ej]; [apply (Edge Ej) in M1; lia|].
          assert (top < j) by lia. lia.
      + assert (m < 2 ^ prec) by lia. destruct (Z.leb_spec E (emax - prec)) as [X|X].
        * split.
          -- intros _. cbn [valid sign_of amount even_of]. rewrite Z2Pos.id by lia. fold j.
             split; [split; [lia|]; split; [lia|]; destruct B2; [now left|right; lia]|]. split; [reflexivity|]. exact Near.
          -- intro Q. exfalso. apply ET2 in X. destruct (Z.eq_dec j top) as [Ej|Ej]; [apply (Edge Ej) in Q; lia|].
             assert (n < d * bound) by (apply Small; lia). lia.
        * split; [|reflexivity]. intro Q. assert (top < j) by lia. lia.
  Qed.

  (** ** The operations *)

  Lemma shift_pos_run d m : Zpos (shift_pos d m) = Zpos m * 2 ^ Zpos d.
  Proof. rewrite shift_pos_correct, Z.mul_comm. reflexivity. Qed.
  Lemma digits_shift m k : 0 < m -> 0 <= k -> Zdigits2 (m * 2 ^ k) = Zdigits2 m + k.
  Proof.
    intros Pm Pk. pose proof (Zdigits_pos m Pm). destruct (Zdigits_bound m Pm) as [A B]. pose proof (pow_pos k Pk).
    apply digits_unique; [nia|lia|]. replace (Zdigits2 m + k - 1) with (Zdigits2 m - 1 + k) by lia.
    rewrite !Z.pow_add_r by lia. split; [apply Z.mul_le_mono_nonneg_r; lia|apply Z.mul_lt_mono_pos_r; lia].
  Qed.
  Lemma align m e e' : Zpos (fst (shl_align m e e')) = Zpos m * 2 ^ (e - Z.min e e') /\ snd (shl_align m e e') = Z.min e e'.
  Proof.
    unfold shl_align. destruct (e' - e) eqn:X; cbn [fst snd].
    - rewrite Z.min_l, Z.sub_diag by lia. split; [rewrite Z.mul_1_r; reflexivity|reflexivity].
    - rewrite Z.min_l, Z.sub_diag by lia. split; [rewrite Z.mul_1_r; reflexivity|reflexivity].
    - rewrite Z.min_r by lia. split; [|reflexivity]. rewrite shift_pos_run. do 2 f_equal. lia.
  Qed.

  Lemma binary_round_correct s m e : emin <= e -> correct (binary_round prec emax s m e) s (Zpos m * 2 ^ (e - emin)) 1.
  Proof.
    intro Pe. unfold binary_round. set (e' := fexp prec emax (Z.pos (digits2_pos m) + e)).
    destruct (align m e e') as [A1 A2]. destruct (shl_align m e e') as [mz ez]. cbn [fst snd] in A1, A2. subst ez. rewrite A1.
    assert (Pe' : emin <= e') by (unfold e', fexp, SpecFloat.emin, emin; lia).
    set (c := Z.min e e') in *.
    assert (S : scale (Zpos m * 2 ^ (e - c)) c = e').
    { unfold scale. rewrite digits_shift by lia. unfold e'. f_equal. cbn [Zdigits2]. lia. }
    apply round_correct with (N := Zpos m * 2 ^ (e - c)) (D := 1); try lia.
    - now rewrite Z.div_1_r.
    - apply located_exact.
    - exists 0, (c - emin). split; [lia|]. split; [lia|]. split; [lia|].
      change (2 ^ 0) with 1. rewrite !Z.mul_1_r, <- Z.mul_assoc, <- Z.pow_add_r by lia. f_equal. f_equal. lia.
  Qed.

  Lemma mul_correct s m1 e1 m2 e2 : valid (S754_finite false m1 e1) -> valid (S754_finite false m2 e2) ->
    correct (binary_round_aux prec emax s (Zpos (m1 * m2)) (e1 + e2) loc_Exact) s
      (Zpos m1 * 2 ^ (e1 - emin) * (Zpos m2 * 2 ^ (e2 - emin))) (2 ^ (- emin)).
  Proof.
    cbn [valid]. intros (E1 & _ & N1) (E2 & _ & N2).
    assert (Le : e1 + e2 <= scale (Zpos (m1 * m2)) (e1 + e2)).
    { unfold scale, fexp. change (SpecFloat.emin prec emax) with emin.
      destruct (Z.le_gt_cases prec (Zdigits2 (Zpos (m1 * m2)))) as [X|X]; [lia|].
      destruct (Zdigits_bound (Zpos (m1 * m2)) ltac:(lia)) as [_ U].
      assert (Zpos (m1 * m2) < 2 ^ (prec - 1)) by (eapply Z.lt_le_trans; [exact U|apply Z.pow_le_mono_r; lia]).
      rewrite Pos2Z.inj_mul in *. destruct N1 as [N1|N1]; [|nia]. destruct N2 as [N2|N2]; [|nia]. lia. }
    apply round_correct with (N := Zpos (m1 * m2)) (D := 1); try lia.
    - now rewrite Z.div_1_r.
    - apply located_exact.
    - exists (- emin), (e1 + e2 - emin - emin). split; [lia|]. split; [lia|]. split; [lia|].
      rewrite Pos2Z.inj_mul.
      replace (e1 + e2 - emin - emin) with (e1 - emin + (e2 - emin)) by lia. rewrite (Z.pow_add_r 2 (e1 - emin)) by lia. ring.
  Qed.

  Lemma new_location_run d k : 0 < d -> 0 <= k < d -> new_location d k = if k =? 0 then loc_Exact else loc_Inexact (2 * k ?= d).
  Proof.
    intros Pd B. unfold new_location, new_location_even, new_location_odd.
    assert (Z0 : Zeq_bool k 0 = (k =? 0)). { destruct (Z.eqb_spec k 0) as [->|X]; [reflexivity|]. destruct (Zeq_bool k 0) eqn:Y; [apply Zeq_bool_eq in Y; lia|reflexivity]. }
    destruct (Z.even d) eqn:Ev; cbv beta; rewrite Z0; [reflexivity|]. destruct (Z.eqb_spec k 0) as [_|K]; [reflexivity|]. f_equal.
    assert (2 * k <> d) by (intros <-; rewrite Z.even_mul in Ev; discriminate).
    destruct (Z.compare_spec (2 * k + 1) d), (Z.compare_spec (2 * k) d); try reflexivity; lia.
  Qed.
  Lemma located_div n d : 0 < d -> located (shr_record_of_loc (n / d) (new_location d (n mod d))) n d.
  Proof.
    intro Pd. destruct (split_mod n d Pd) as [_ B]. rewrite new_location_run by lia. unfold located. set (k := n mod d) in *.
    destruct (Z.eqb_spec k 0) as [K|K].
    - cbn [shr_record_of_loc shr_m shr_r shr_s orb negb]. rewrite K. split; [reflexivity|]. split; [symmetry; apply Z.leb_gt; lia|reflexivity].
    - cbn [orb]. destruct (Z.compare_spec (2 * k) d); cbn [shr_record_of_loc shr_m shr_r shr_s]; (split; [reflexivity|]); split; symmetry;
        try (apply Z.leb_le; lia); try (apply Z.leb_gt; lia); try (apply negb_false_iff, Z.eqb_eq; lia); apply negb_true_iff, Z.eqb_neq; lia.
  Qed.

  Lemma div_correct s m1 e1 m2 e2 : emin <= e1 -> emin <= e2 ->
    correct (let '(mz, ez, lz) := SFdiv_core_binary prec emax (Zpos m1) e1 (Zpos m2) e2 in binary_round_aux prec emax s mz ez lz) s
      (Zpos m1 * 2 ^ (e1 - emin) * 2 ^ (- emin)) (Zpos m2 * 2 ^ (e2 - emin)).
  Proof.
    intros E1 E2. unfold SFdiv_core_binary.
    set (x := Zdigits2 (Zpos m1) + e1 - (Zdigits2 (Zpos m2) + e2)). set (e' := Z.min (fexp prec emax x) (e1 - e2)).
    set (k := e1 - e2 - e'). assert (Pk : 0 <= k) by (unfold k, e'; lia).
    replace (match k with Z0 => Zpos m1 | Zpos _ => Z.shiftl (Zpos m1) k | Zneg _ => 0 end) with (Zpos m1 * 2 ^ k).
    2:{ destruct k eqn:K; [now rewrite Z.mul_1_r|now rewrite Z.shiftl_mul_pow2 by lia|lia]. }
    set (N := Zpos m1 * 2 ^ k). assert (PN : 0 < N) by (unfold N; pose proof (pow_pos k Pk); nia).
    pose proof (located_div N (Zpos m2) ltac:(lia)) as L.
    assert (DE : Z.div_eucl N (Zpos m2) = (N / Zpos m2, N mod Zpos m2)) by (unfold Z.div, Z.modulo; now destruct (Z.div_eucl N (Zpos m2))).
    rewrite DE. clear DE.
    assert (Dg : Zdigits2 (Zpos m1) + k - Zdigits2 (Zpos m2) <= Zdigits2 (N / Zpos m2)).
    { destruct (Z.le_gt_cases (Zdigits2 (Zpos m1) + k - Zdigits2 (Zpos m2)) 0) as [X|X].
      - assert (0 <= Zdigits2 (N / Zpos m2)); [|lia]. destruct (N / Zpos m2); cbn; lia.
      - set (w := Zdigits2 (Zpos m1) + k - Zdigits2 (Zpos m2)) in *.
        destruct (Zdigits_bound N PN) as [NB _]. unfold N in NB at 1. rewrite digits_shift in NB by lia.
        destruct (Zdigits_bound (Zpos m2) ltac:(lia)) as [_ MB]. pose proof (Zdigits_pos (Zpos m2) ltac:(lia)).
        assert (Q : 2 ^ (w - 1) <= N / Zpos m2).
        { apply Z.div_le_lower_bound; [lia|]. eapply Z.le_trans; [|exact NB].
          replace (Zdigits2 (Zpos m1) + k - 1) with (Zdigits2 (Zpos m2) + (w - 1)) by (unfold w; lia).
          rewrite Z.pow_add_r by lia. apply Z.mul_le_mono_nonneg_r; [apply Z.pow_nonneg; lia|lia]. }
        pose proof (pow_pos (w - 1) ltac:(lia)).
        destruct (Zdigits_bound (N / Zpos m2) ltac:(lia)) as [_ U].
        destruct (Z.le_gt_cases w (Zdigits2 (N / Zpos m2))) as [Y|Y]; [exact Y|].
        assert (2 ^ Zdigits2 (N / Zpos m2) <= 2 ^ (w - 1)) by (apply Z.pow_le_mono_r; lia). lia. }
    apply round_correct with (N := N) (D := Zpos m2); try lia.
    - exact L.
    - unfold scale. apply Z.le_trans with (fexp prec emax x); [unfold e'; lia|]. apply fexp_mono. unfold x, k in *. lia.
    - exists (Z.max 0 (emin - e')), (Z.max 0 (e' - emin)). split; [lia|]. split; [lia|]. split; [lia|].
      set (a := Z.max 0 (emin - e')). set (b := Z.max 0 (e' - emin)).
      assert (X : 2 ^ (e1 - emin) * 2 ^ (- emin) * 2 ^ a = 2 ^ k * 2 ^ (e2 - emin) * 2 ^ b).
      { rewrite <- !Z.pow_add_r by (unfold a, b; lia). f_equal. unfold a, b, k. lia. }
      unfold N. transitivity (Zpos m1 * Zpos m2 * (2 ^ (e1 - emin) * 2 ^ (- emin) * 2 ^ a)); [ring|]. rewrite X. ring.
  Qed.

  (** A number of the format is its own rounding. *)
  Lemma exact_correct x : valid x -> correct x (sign_of x) (amount x) 1.
  Proof.
    intro V. unfold correct. rewrite Z.mul_1_l. pose proof (pow_double prec ltac:(lia)) as Pp.
    assert (Pt : 1 <= top) by (unfold top, emin; lia).
    pose proof (pow_pos (top - 1) ltac:(lia)) as PT. pose proof (pow_double top ltac:(lia)) as PT2.
    assert (Bd : bound = (2 * 2 ^ prec - 1) * 2 ^ (top - 1)).
    { unfold bound. replace (prec + 1) with (1 + prec) by lia. rewrite Z.pow_add_r by lia. reflexivity. }
    pose proof (pow_pos prec ltac:(lia)) as Pp0.
    assert (A : amount x < bound).
    { destruct x as [s|s| |s m e]; cbn [amount valid] in *; try (rewrite Bd; nia). destruct V as (E1 & M & _).
      assert (2 ^ (e - emin) <= 2 ^ top) by (apply Z.pow_le_mono_r; unfold top; lia).
      pose proof (pow_pos (e - emin) ltac:(lia)).
      assert (Zpos m * 2 ^ (e - emin) <= (2 ^ prec - 1) * 2 ^ top) by (apply Z.mul_le_mono_nonneg; lia). rewrite Bd. nia. }
    split; [|lia]. intros _. split; [exact V|]. split; [reflexivity|]. intros y _. rewrite Z.mul_1_r. split; [lia|]. intro. left. lia.
  Qed.

  (** A representable amount is rounded to itself. *)
  Lemma correct_exact r s n : 0 <= n < bound -> representable n -> correct r s n 1 -> valid r /\ sign_of r = s /\ amount r = n.
  Proof.
    intros B R [C _]. destruct (C ltac:(lia)) as (V & S & Nr). split; [exact V|]. split; [exact S|]. destruct (Nr n R) as [X _]. lia.
  Qed.
End Round.

(** Bit patterns and the numbers they stand for; the operations of the model follow the specification. *)
From Coq Require Import NArith ZArith Lia Bool SpecFloat.
From Verif Require Import Base BaseFacts Value SpecExec SpecIeee FloatFacts FloatFields FloatRound.
Open Scope N_scope.

Definition with_sign (s : bool) (n : Z) : Z := if s then (- n)%Z else n.

Section Bits.
  Variable f : fformat.
  Variables mb eb : N.
  Hypothesis Hmb : f_prec f = (Z.of_N mb + 1)%Z.
  Hypothesis Hf : f_ebits f = eb.
  Hypothesis Heb : f_emax f = (2 ^ (Z.of_N eb - 1))%Z.
  Hypothesis Pmb : 1 <= mb.
  Hypothesis Peb : 2 <= eb.

  Let prec := f_prec f.
  Let emax := f_emax f.

  Lemma is_fmbits : fmbits f = mb. Proof. unfold fmbits. rewrite Hmb. lia. Qed.
  Lemma is_prec : (2 <= prec)%Z. Proof. unfold prec. lia. Qed.
  Lemma is_emax : (2 <= emax)%Z.
  Proof. unfold emax. rewrite Heb. change 2%Z with (2 ^ 1)%Z at 1. apply Z.pow_le_mono_r; lia. Qed.
  Lemma two_emax : Z.of_N (2 ^ eb) = (2 * emax)%Z.
  Proof.
    unfold emax. rewrite Heb, N2Z.inj_pow. change (Z.of_N 2) with 2%Z.
    replace (Z.of_N eb) with (1 + (Z.of_N eb - 1))%Z at 1 by lia. rewrite Z.pow_add_r by lia. reflexivity.
  Qed.

  Local Notation pack := (FloatFields.pack mb eb).
  Let pack_fields := FloatFields.pack_fields mb eb Pmb.
  Let unpack := FloatFields.unpack mb eb Pmb.
  Let measure_pack := FloatFields.measure_pack mb eb Pmb.
  Let measure_inj := FloatFields.measure_inj mb eb Pmb.

  (** ** From numbers to bit patterns *)

  Lemma encode x : valid prec emax x ->
    is_finite mb eb (to_bits f x) /\ negative mb eb (to_bits f x) = sign_of x /\
    measure mb eb (to_bits f x) = with_sign (sign_of x) (amount prec emax x) /\ N.even (to_bits f x) = even_of x.
  Proof.
    pose proof (p2 mb) as P1. pose proof two_emax as TE. pose proof is_emax as PE.
    assert (P2 : 4 <= 2 ^ eb) by (change 4 with (2 ^ 2); apply N.pow_le_mono_r; lia).
    assert (G : forall s e m x, m < 2 ^ mb -> e < 2 ^ eb - 1 -> to_bits f x = pack s e m -> sign_of x = s ->
              Z.of_N (mag mb e m) = amount prec emax x -> N.even m = even_of x ->
              is_finite mb eb (to_bits f x) /\ negative mb eb (to_bits f x) = sign_of x /\
              measure mb eb (to_bits f x) = with_sign (sign_of x) (amount prec emax x) /\ N.even (to_bits f x) = even_of x).
    { intros s e m y M E -> S A Ev. destruct (pack_fields s e m M ltac:(lia)) as (F1 & F2 & F3 & F4 & F5).
      split; [split; [exact F4|lia]|]. split; [now rewrite F3, S|]. split; [|now rewrite F5].
      rewrite measure_pack by lia. rewrite <- A, S. unfold apply_sign, with_sign. now destruct s. }
    destruct x as [s|s| |s m e]; cbn [valid]; try tauto.
    - intros _. apply (G s 0 0); try lia; try reflexivity. cbn [to_bits]. unfold FloatFields.pack. rewrite is_fmbits, Hf. destruct s; lia.
    - intros (E & M & N). 
      assert (Mp : (2 ^ prec = 2 * Z.of_N (2 ^ mb))%Z).
      { unfold prec. rewrite Hmb, Z.add_comm, Z.pow_add_r, N2Z.inj_pow by lia. reflexivity. }
      assert (Mp1 : (2 ^ (prec - 1) = Z.of_N (2 ^ mb))%Z).
      { unfold prec. rewrite Hmb, N2Z.inj_pow. f_equal. lia. }
      rewrite Mp, Mp1 in *. fold prec emax in E, N.
      destruct (N.ltb_spec (N.pos m) (2 ^ mb)) as [L|L].
      + assert (e = femin f) by (unfold femin; fold prec emax; destruct N; lia).
        apply (G s 0 (N.pos m)); try lia; try reflexivity.
        * cbn [to_bits]. rewrite is_fmbits, Hf. destruct (N.ltb_spec (N.pos m) (2 ^ mb)); [|lia]. unfold FloatFields.pack. lia.
        * cbn [amount]. replace (e - (3 - emax - prec))%Z with 0%Z by (rewrite H; unfold femin; fold prec emax; lia).
          unfold mag. cbn [N.eqb]. lia.
      + set (k := Z.to_N (e - femin f + 1)).
        assert (K : Z.of_N k = (e - (3 - emax - prec) + 1)%Z) by (unfold k, femin; fold prec emax; lia).
        apply (G s k (N.pos m - 2 ^ mb)); try lia; try reflexivity.
        * cbn [to_bits]. rewrite is_fmbits, Hf. destruct (N.ltb_spec (N.pos m) (2 ^ mb)); [lia|]. reflexivity.
        * cbn [amount]. unfold mag. destruct (N.eqb_spec k 0); [lia|].
          replace (2 ^ mb + (N.pos m - 2 ^ mb)) with (N.pos m) by lia. rewrite N2Z.inj_mul, N2Z.inj_pow.
          do 2 f_equal; lia.
        * cbn [even_of]. rewrite N.even_sub by lia. replace (2 ^ mb) with (2 * 2 ^ (mb - 1)) by (rewrite <- N.pow_succ_r'; f_equal; lia).
          rewrite N.even_mul. cbn. now destruct m.
  Qed.

  Lemma encode_nan : not_a_number mb eb (to_bits f S754_nan).
  Proof.
    pose proof (p2 eb). pose proof (p2 mb). pose proof (p2 (mb - 1)).
    assert (X : 2 ^ mb = 2 * 2 ^ (mb - 1)) by (rewrite <- N.pow_succ_r'; f_equal; lia).
    assert (E : to_bits f S754_nan = pack false (2 ^ eb - 1) (2 ^ (mb - 1))).
    { cbn [to_bits]. rewrite is_fmbits, Hf. reflexivity. }
    destruct (pack_fields false (2 ^ eb - 1) (2 ^ (mb - 1)) ltac:(lia) ltac:(lia)) as (F1 & F2 & F3 & F4 & _).
    rewrite E. split; [exact F4|]. split; [exact F2|]. lia.
  Qed.
  Lemma encode_inf s : to_bits f (S754_infinity s) = infinity mb eb s.
  Proof. cbn [to_bits]. rewrite is_fmbits, Hf. reflexivity. Qed.
  Lemma encode_zero s : to_bits f (S754_zero s) = zero mb eb s.
  Proof. cbn [to_bits]. rewrite is_fmbits, Hf. reflexivity. Qed.

  (** ** From bit patterns to numbers *)

  Inductive decoded (b : N) : spec_float -> Prop :=
  | d_nan : is_nan mb eb b -> decoded b S754_nan
  | d_inf s : b = infinity mb eb s -> decoded b (S754_infinity s)
  | d_fin x : is_finite mb eb b -> valid prec emax x -> sign_of x = negative mb eb b ->
      measure mb eb b = with_sign (sign_of x) (amount prec emax x) -> decoded b x.

  Lemma pow_prec : (2 ^ prec = 2 * Z.of_N (2 ^ mb))%Z.
  Proof. unfold prec. rewrite Hmb, Z.add_comm, Z.pow_add_r, N2Z.inj_pow by lia. reflexivity. Qed.
  Lemma pow_prec1 : (2 ^ (prec - 1) = Z.of_N (2 ^ mb))%Z.
  Proof. unfold prec. rewrite Hmb, N2Z.inj_pow. f_equal. lia. Qed.

  Lemma decode b : in_format mb eb b -> decoded b (of_bits f b).
  Proof.
    intro I. destruct (nan_dec mb eb b) as [N|N]; [rewrite (nan_bits f mb eb b is_fmbits Hf N); now apply d_nan|].
    rewrite (of_bits_fields f b mb eb is_fmbits Hf).
    pose proof (unpack b I) as U. pose proof (measure_fields mb eb b) as MF.
    assert (S0 : negb (N.even (b / 2 ^ (mb + eb))) = negative mb eb b) by (unfold negative; apply N.negb_even).
    rewrite S0 in *. set (s := negative mb eb b) in *.
    assert (E : (b / 2 ^ mb) mod 2 ^ eb < 2 ^ eb) by (apply N.mod_lt, N.pow_nonzero; lia).
    assert (M : b mod 2 ^ mb < 2 ^ mb) by (apply N.mod_lt, N.pow_nonzero; lia).
    assert (NN : ~ ((b / 2 ^ mb) mod 2 ^ eb = 2 ^ eb - 1 /\ b mod 2 ^ mb <> 0)) by exact N.
    pose proof (shape_of mb eb (femin f) s _ _ ltac:(lia) E M NN) as SH.
    assert (F : (b / 2 ^ mb) mod 2 ^ eb <> 2 ^ eb - 1 -> is_finite mb eb b) by (intro; split; assumption).
    set (e := (b / 2 ^ mb) mod 2 ^ eb) in *. set (m := b mod 2 ^ mb) in *.
    assert (P2 : 4 <= 2 ^ eb) by (change 4 with (2 ^ 2); apply N.pow_le_mono_r; lia).
    pose proof two_emax as TE. pose proof is_emax as PE. pose proof pow_prec as PP. pose proof pow_prec1 as PP1.
    pose proof is_prec as Pp. clearbody e m. clear N NN I S0.
    destruct SH as [E0 M0|q E0 M0|q E0 E1 M0|E0 E1 M0].
    - apply d_fin; [apply F; lia|exact Logic.I|reflexivity|]. rewrite MF, E0, M0. unfold s. now destruct (negative mb eb b).
    - apply d_fin; [apply F; lia| |reflexivity|].
      + cbn [valid]. unfold femin. fold prec emax. split; [lia|]. split; [lia|]. now left.
      + rewrite MF, E0, M0. cbn [sign_of amount]. unfold femin. fold prec emax. rewrite Z.sub_diag, Z.mul_1_r. reflexivity.
    - apply d_fin; [apply F; lia| |reflexivity|].
      + cbn [valid]. unfold femin. fold prec emax. split; [lia|]. split; [lia|]. right. lia.
      + rewrite MF. cbn [sign_of amount]. unfold femin. fold prec emax. unfold apply_sign, with_sign, mag.
        destruct (N.eqb_spec e 0); [lia|]. replace (2 ^ mb + m) with (N.pos q) by lia.
        assert (X : Z.of_N (N.pos q * 2 ^ (e - 1)) = (Z.pos q * 2 ^ (Z.of_N e - 1 + (3 - emax - prec) - (3 - emax - prec)))%Z).
        { rewrite N2Z.inj_mul, N2Z.inj_pow. do 2 f_equal; lia. }
        now rewrite X.
    - apply d_inf. rewrite U, E1, M0. unfold FloatFields.pack, infinity, zero. fold s. destruct s; lia.
  Qed.

  Lemma finite_representable b : is_finite mb eb b -> representable prec (measure mb eb b).
  Proof.
    intros [I F]. pose proof (decode b I) as D. pose proof pow_prec as PP. pose proof (p2 mb) as P1. revert D. generalize (of_bits f b). intros y D. destruct D as [N|s Q|x F0 V S MS].
    - destruct N. contradiction.
    - exfalso. apply F. rewrite Q. change (infinity mb eb s) with (zero mb eb s + (2 ^ eb - 1) * 2 ^ mb).
      assert (X : zero mb eb s + (2 ^ eb - 1) * 2 ^ mb = pack s (2 ^ eb - 1) 0) by (unfold FloatFields.pack, zero; lia).
      rewrite X. apply pack_fields; [lia|]. pose proof (p2 eb). lia.
    - rewrite MS. unfold representable. destruct x as [t|t| |t m e]; cbn [valid amount sign_of] in *; try tauto.
      + exists 0%Z, 0%Z. split; [now destruct t|]. rewrite PP. lia.
      + exists (Zpos m), (e - (3 - emax - prec))%Z. split; [|lia].
        assert (A : (0 <= Zpos m * 2 ^ (e - (3 - emax - prec)))%Z) by (apply Z.mul_nonneg_nonneg; [lia|apply Z.pow_nonneg; lia]).
        destruct t; cbn [with_sign]; [rewrite Z.abs_opp|]; now apply Z.abs_eq.
  Qed.

  (** ** Rounding *)

  Lemma is_limit : limit mb eb = bound prec emax.
  Proof.
    pose proof two_emax as TE. pose proof is_emax as PE. pose proof is_prec as Pp.
    assert (P2 : 4 <= 2 ^ eb) by (change 4 with (2 ^ 2); apply N.pow_le_mono_r; lia).
    unfold limit, bound, top. do 2 f_equal; [|lia]. f_equal. unfold prec. lia.
  Qed.

  Lemma correct_rounds x s n d zs : (0 <= n)%Z -> (0 < d)%Z -> (n = 0%Z -> zs = s) -> correct prec emax x s n d ->
    rounds mb eb (with_sign s n) d zs (to_bits f x).
  Proof.
    intros Pn Pd Zs [C1 C2]. pose proof is_prec as Pp. pose proof is_emax as PE.
    assert (A : Z.abs (with_sign s n) = n) by (destruct s; cbn [with_sign]; lia).
    assert (BP : (0 < d * bound prec emax)%Z).
    { unfold bound. apply Z.mul_pos_pos; [exact Pd|]. apply Z.mul_pos_pos.
      - assert (2 ^ 1 <= 2 ^ (prec + 1))%Z by (apply Z.pow_le_mono_r; lia). lia.
      - apply Z.pow_pos_nonneg; unfold top; lia. }
    assert (Sg : (if (with_sign s n =? 0)%Z then zs else (with_sign s n <? 0)%Z) = s).
    { destruct (Z.eqb_spec (with_sign s n) 0) as [Z0|Z0]; [apply Zs; lia|].
      destruct s; cbn [with_sign] in *; [apply Z.ltb_lt|apply Z.ltb_ge]; lia. }
    unfold rounds. rewrite A, Sg, is_limit. split; [|split].
    - intro L. destruct (C1 L) as (V & S & Near). destruct (encode x V) as (F & Ng & Ms & Ev).
      split; [exact F|]. intros c Fc. rewrite Ms, S, Ev.
      pose proof (finite_representable c Fc) as R.
      assert (R' : representable prec (with_sign s (measure mb eb c))).
      { destruct R as (m & k & R & B). exists m, k. split; [|exact B]. rewrite <- R. destruct s; cbn [with_sign]; lia. }
      destruct (Near _ R') as [N1 N2]. set (mc := measure mb eb c) in *. set (mr := amount prec emax x) in *.
      assert (X1 : Z.abs (with_sign s mr * d - with_sign s n) = Z.abs (mr * d - n)) by (destruct s; cbn [with_sign]; lia).
      assert (X2 : Z.abs (mc * d - with_sign s n) = Z.abs (with_sign s mc * d - n)) by (destruct s; cbn [with_sign]; lia).
      rewrite X1, X2. split; [exact N1|]. intro Q. destruct (N2 Q) as [K|K]; [left|now right]. destruct s; cbn [with_sign] in *; lia.
    - intro L. rewrite (C2 L), encode_inf. f_equal. destruct s; cbn [with_sign]; symmetry; [apply Z.ltb_lt|apply Z.ltb_ge]; lia.
    - destruct (Z.lt_ge_cases n (d * bound prec emax)) as [L|L].
      + destruct (C1 L) as (V & S & _). destruct (encode x V) as (F & Ng & _). now rewrite Ng, S.
      + rewrite (C2 L), encode_inf.
        assert (X : infinity mb eb s = pack s (2 ^ eb - 1) 0) by (unfold FloatFields.pack, infinity, zero; lia). rewrite X.
        pose proof (p2 eb). pose proof (p2 mb). apply pack_fields; lia.
  Qed.
  Let emin := (3 - emax - prec)%Z.
  Lemma is_emin : (emin <= 0)%Z. Proof. pose proof is_emax. pose proof is_prec. unfold emin. lia. Qed.

  Lemma exact_rounds x zs : valid prec emax x -> (amount prec emax x = 0%Z -> zs = sign_of x) ->
    rounds mb eb (with_sign (sign_of x) (amount prec emax x)) 1 zs (to_bits f x).
  Proof.
    intros V Z0. apply correct_rounds; [|lia|exact Z0|].
    - destruct x; cbn [amount]; lia.
    - apply exact_correct; [exact is_prec|exact is_emax|exact is_emin|exact V].
  Qed.
  Lemma zero_rounds s d : (0 < d)%Z -> rounds mb eb 0 d s (to_bits f (S754_zero s)).
  Proof.
    intro Pd. pose proof is_prec as Pp. pose proof is_emax as PE. replace 0%Z with (with_sign s 0) by now destruct s.
    apply correct_rounds; [lia|exact Pd|reflexivity|]. split.
    - intros _. split; [exact Logic.I|]. split; [reflexivity|]. intros y _. cbn [amount]. split; [lia|]. intros _. now right.
    - unfold bound. assert (2 ^ 1 <= 2 ^ (prec + 1))%Z by (apply Z.pow_le_mono_r; lia).
      assert (0 < 2 ^ (top prec emax - 1))%Z by (apply Z.pow_pos_nonneg; unfold top; lia).
      intro L. exfalso. assert (0 < d * ((2 ^ (prec + 1) - 1) * 2 ^ (top prec emax - 1)))%Z; [|lia].
      apply Z.mul_pos_pos; [exact Pd|]. apply Z.mul_pos_pos; lia.
  Qed.

  Lemma normalize_rounds z e s0 zs : (emin <= e)%Z -> (z = 0%Z -> zs = s0) ->
    rounds mb eb (z * 2 ^ (e - emin)) 1 zs (to_bits f (binary_normalize prec emax z e s0)).
  Proof.
    intros Pe Zs. assert (P : (0 < 2 ^ (e - emin))%Z) by (apply Z.pow_pos_nonneg; lia).
    pose proof (binary_round_correct prec emax is_prec is_emax is_emin) as BR.
    destruct z as [|m|m]; cbn [binary_normalize].
    - rewrite Z.mul_0_l, (Zs eq_refl). apply zero_rounds. lia.
    - apply (correct_rounds _ false (Zpos m * 2 ^ (e - emin))); [nia|lia|nia|]. apply BR. exact Pe.
    - replace (Zneg m * 2 ^ (e - emin))%Z with (with_sign true (Zpos m * 2 ^ (e - emin))) by (cbn [with_sign]; lia).
      apply correct_rounds; [nia|lia|nia|]. apply BR. exact Pe.
  Qed.
  (** ** The operations *)

  Lemma unit_is : Z.of_N (unit_exponent mb eb) = (- emin)%Z.
  Proof.
    unfold unit_exponent, emin. pose proof is_emax as PE. assert (X : Z.of_N (2 ^ (eb - 1)) = emax).
    { unfold emax. rewrite Heb, N2Z.inj_pow. f_equal. lia. }
    unfold prec. rewrite Hmb. lia.
  Qed.
  Lemma unit_pos : (0 < 2 ^ Z.of_N (unit_exponent mb eb))%Z. Proof. apply Z.pow_pos_nonneg; lia. Qed.
  Lemma signed_xor s t x y : (with_sign s x * with_sign t y = with_sign (xorb s t) (x * y))%Z.
  Proof. destruct s, t; cbn [with_sign xorb]; ring. Qed.
  Lemma amount_pos s m e : (0 < amount prec emax (S754_finite s m e))%Z \/ (e < emin)%Z.
  Proof.
    destruct (Z.lt_ge_cases e emin) as [L|L]; [now right|left]. cbn [amount]. fold emin.
    apply Z.mul_pos_pos; [lia|]. apply Z.pow_pos_nonneg; lia.
  Qed.
  Lemma finite_pos s m e : valid prec emax (S754_finite s m e) -> (0 < amount prec emax (S754_finite s m e))%Z.
  Proof. intros (E & _). destruct (amount_pos s m e) as [H|H]; [exact H|]. fold emin in E. lia. Qed.
  Lemma amount_align s m e c : (emin <= c <= e)%Z ->
    with_sign s (amount prec emax (S754_finite s m e)) = (with_sign s (Zpos m * 2 ^ (e - c)) * 2 ^ (c - emin))%Z.
  Proof.
    intro B. cbn [amount]. fold emin. replace (e - emin)%Z with (e - c + (c - emin))%Z by lia. rewrite Z.pow_add_r by lia.
    destruct s; cbn [with_sign]; ring.
  Qed.
  Lemma signed_nonzero s x : (0 < x)%Z -> with_sign s x <> 0%Z. Proof. destruct s; cbn [with_sign]; lia. Qed.


  Lemma add_ok a b : in_format mb eb a -> in_format mb eb b -> arithmetic mb eb Add a b (float_op f FAdd a b).
  Proof.
    intros Ia Ib. unfold float_op. pose proof (decode a Ia) as Da. pose proof (decode b Ib) as Db.
    revert Da Db. generalize (of_bits f a) (of_bits f b). intros x y Da Db. fold prec emax.
    destruct Da as [Fa|s Fa|[s|s| |s m e] Fa Va Sa Ma]; try (destruct Va; fail);
      destruct Db as [Fb|t Fb|[t|t| |t n g] Fb Vb Sb Mb]; try (destruct Vb; fail); cbn [SFadd];
      try (apply nan_operand; [auto|apply encode_nan]; fail).
    - (* two infinities *)
      subst a b. destruct (Bool.eqb s t) eqn:Q.
      + apply eqb_prop in Q. subst t. rewrite encode_inf. apply add_infinities.
      + assert (t = negb s) as -> by (destruct s, t; try reflexivity; discriminate). apply add_opposite. apply encode_nan.
    - subst a. rewrite encode_inf. now apply add_infinite_l.
    - subst a. rewrite encode_inf. now apply add_infinite_l.
    - subst b. rewrite encode_inf. now apply add_infinite_r.
    - apply add_finite; [exact Fa|exact Fb|]. rewrite Ma, Mb, <- Sa, <- Sb. cbn [sign_of amount].
      replace (with_sign s 0 + with_sign t 0)%Z with 0%Z by (destruct s, t; reflexivity).
      destruct s, t; cbn [Bool.eqb andb]; apply zero_rounds; lia.
    - apply add_finite; [exact Fa|exact Fb|]. rewrite Ma, Mb. cbn [sign_of]. change (amount prec emax (S754_zero s)) with 0%Z.
      replace (with_sign s 0 + with_sign t (amount prec emax (S754_finite t n g)))%Z with (with_sign t (amount prec emax (S754_finite t n g))) by (destruct s; cbn [with_sign]; lia).
      apply (exact_rounds (S754_finite t n g)); [exact Vb|]. pose proof (finite_pos t n g Vb). lia.
    - subst b. rewrite encode_inf. now apply add_infinite_r.
    - apply add_finite; [exact Fa|exact Fb|]. rewrite Ma, Mb. cbn [sign_of]. change (amount prec emax (S754_zero t)) with 0%Z.
      replace (with_sign s (amount prec emax (S754_finite s m e)) + with_sign t 0)%Z with (with_sign s (amount prec emax (S754_finite s m e))) by (destruct t; cbn [with_sign]; lia).
      apply (exact_rounds (S754_finite s m e)); [exact Va|]. pose proof (finite_pos s m e Va). lia.
    - apply add_finite; [exact Fa|exact Fb|]. rewrite Ma, Mb, <- Sa, <- Sb. cbn [sign_of]. set (c := Z.min e g).
      destruct (align prec emax m e c) as [A1 _]. destruct (align prec emax n g c) as [A2 _]. rewrite A1, A2. change cond_Zopp with with_sign.
      replace (Z.min e c) with c by (unfold c; lia). replace (Z.min g c) with c by (unfold c; lia).
      pose proof (finite_pos s m e Va) as Pa. pose proof (finite_pos t n g Vb) as Pb.
      destruct Va as (Ea & _). destruct Vb as (Eb & _). fold emin in Ea, Eb.
      assert (Sum : (with_sign s (amount prec emax (S754_finite s m e)) + with_sign t (amount prec emax (S754_finite t n g)))%Z =
                ((with_sign s (Zpos m * 2 ^ (e - c)) + with_sign t (Zpos n * 2 ^ (g - c))) * 2 ^ (c - emin))%Z).
      { rewrite (amount_align s m e c), (amount_align t n g c) by (unfold c; lia). ring. }
      assert (Z0 : (with_sign s (Zpos m * 2 ^ (e - c)) + with_sign t (Zpos n * 2 ^ (g - c)))%Z = 0%Z -> (s && t)%bool = false).
      { intro Q. rewrite Q, Z.mul_0_l in Sum. destruct s, t; cbn [with_sign andb] in *; try reflexivity. lia. }
      rewrite Sum. apply normalize_rounds; [unfold c; lia|exact Z0].
  Qed.

  Lemma sub_ok a b : in_format mb eb a -> in_format mb eb b -> arithmetic mb eb Sub a b (float_op f FSub a b).
  Proof.
    intros Ia Ib. unfold float_op. pose proof (decode a Ia) as Da. pose proof (decode b Ib) as Db.
    revert Da Db. generalize (of_bits f a) (of_bits f b). intros x y Da Db. fold prec emax.
    destruct Da as [Fa|s Fa|[s|s| |s m e] Fa Va Sa Ma]; try (destruct Va; fail);
      destruct Db as [Fb|t Fb|[t|t| |t n g] Fb Vb Sb Mb]; try (destruct Vb; fail); cbn [SFsub];
      try (apply nan_operand; [auto|apply encode_nan]; fail).
    - subst a b. destruct (Bool.eqb s (negb t)) eqn:Q.
      + apply eqb_prop in Q. subst s. rewrite encode_inf. rewrite <- (negb_involutive t) at 2. apply sub_infinities.
      + assert (t = s) as -> by (destruct s, t; try reflexivity; discriminate). apply sub_equal. apply encode_nan.
    - subst a. rewrite encode_inf. now apply sub_infinite_l.
    - subst a. rewrite encode_inf. now apply sub_infinite_l.
    - subst b. rewrite encode_inf. now apply sub_infinite_r.
    - apply sub_finite; [exact Fa|exact Fb|]. rewrite Ma, Mb, <- Sa, <- Sb. cbn [sign_of amount].
      replace (with_sign s 0 - with_sign t 0)%Z with 0%Z by (destruct s, t; reflexivity).
      destruct s, t; cbn [Bool.eqb andb negb]; apply zero_rounds; lia.
    - apply sub_finite; [exact Fa|exact Fb|]. rewrite Ma, Mb. cbn [sign_of]. change (amount prec emax (S754_zero s)) with 0%Z.
      replace (with_sign s 0 - with_sign t (amount prec emax (S754_finite t n g)))%Z with (with_sign (negb t) (amount prec emax (S754_finite (negb t) n g)))
        by (destruct s, t; cbn [with_sign negb amount]; lia).
      apply (exact_rounds (S754_finite (negb t) n g)); [exact Vb|]. pose proof (finite_pos (negb t) n g Vb). lia.
    - subst b. rewrite encode_inf. now apply sub_infinite_r.
    - apply sub_finite; [exact Fa|exact Fb|]. rewrite Ma, Mb. cbn [sign_of]. change (amount prec emax (S754_zero t)) with 0%Z.
      replace (with_sign s (amount prec emax (S754_finite s m e)) - with_sign t 0)%Z with (with_sign s (amount prec emax (S754_finite s m e))) by (destruct t; cbn [with_sign]; lia).
      apply (exact_rounds (S754_finite s m e)); [exact Va|]. pose proof (finite_pos s m e Va). lia.
    - apply sub_finite; [exact Fa|exact Fb|]. rewrite Ma, Mb, <- Sa, <- Sb. cbn [sign_of]. set (c := Z.min e g).
      destruct (align prec emax m e c) as [A1 _]. destruct (align prec emax n g c) as [A2 _]. rewrite A1, A2. change cond_Zopp with with_sign.
      replace (Z.min e c) with c by (unfold c; lia). replace (Z.min g c) with c by (unfold c; lia).
      pose proof (finite_pos s m e Va) as Pa. pose proof (finite_pos t n g Vb) as Pb.
      destruct Va as (Ea & _). destruct Vb as (Eb & _). fold emin in Ea, Eb.
      assert (Sum : (with_sign s (amount prec emax (S754_finite s m e)) - with_sign t (amount prec emax (S754_finite t n g)))%Z =
                ((with_sign s (Zpos m * 2 ^ (e - c)) - with_sign t (Zpos n * 2 ^ (g - c))) * 2 ^ (c - emin))%Z).
      { rewrite (amount_align s m e c), (amount_align t n g c) by (unfold c; lia). ring. }
      assert (Z0 : (with_sign s (Zpos m * 2 ^ (e - c)) - with_sign t (Zpos n * 2 ^ (g - c)))%Z = 0%Z -> (s && negb t)%bool = false).
      { intro Q. rewrite Q, Z.mul_0_l in Sum. destruct s, t; cbn [with_sign andb negb] in *; try reflexivity. lia. }
      rewrite Sum. apply normalize_rounds; [unfold c; lia|exact Z0].
  Qed.

  Lemma mul_ok a b : in_format mb eb a -> in_format mb eb b -> arithmetic mb eb Mul a b (float_op f FMul a b).
  Proof.
    intros Ia Ib. unfold float_op. pose proof (decode a Ia) as Da. pose proof (decode b Ib) as Db.
    revert Da Db. generalize (of_bits f a) (of_bits f b). intros x y Da Db. fold prec emax.
    destruct Da as [Fa|s Fa|[s|s| |s m e] Fa Va Sa Ma]; try (destruct Va; fail);
      destruct Db as [Fb|t Fb|[t|t| |t n g] Fb Vb Sb Mb]; try (destruct Vb; fail); cbn [SFmul];
      try (apply nan_operand; [auto|apply encode_nan]; fail).
    - subst a b. rewrite encode_inf. apply mul_infinities.
    - subst a. apply mul_zero_r; [exact Fb|rewrite Mb; now destruct t|apply encode_nan].
    - subst a. rewrite encode_inf. cbn [sign_of] in Sb. rewrite Sb. apply mul_infinite_l; [exact Fb|]. rewrite Mb.
      apply signed_nonzero, finite_pos, Vb.
    - subst b. apply mul_zero_l; [exact Fa|rewrite Ma; now destruct s|apply encode_nan].
    - apply mul_finite; [exact Fa|exact Fb|]. rewrite Ma, Mb, <- Sa, <- Sb. cbn [sign_of amount].
      rewrite signed_xor. replace (with_sign (xorb s t) (0 * 0)) with 0%Z by (destruct s, t; reflexivity). apply zero_rounds, unit_pos.
    - apply mul_finite; [exact Fa|exact Fb|]. rewrite Ma, Mb, <- Sa, <- Sb. cbn [sign_of]. change (amount prec emax (S754_zero s)) with 0%Z.
      rewrite signed_xor, Z.mul_0_l. replace (with_sign (xorb s t) 0) with 0%Z by (destruct s, t; reflexivity). apply zero_rounds, unit_pos.
    - subst b. rewrite encode_inf. cbn [sign_of] in Sa. rewrite Sa. apply mul_infinite_r; [exact Fa|]. rewrite Ma.
      apply signed_nonzero, finite_pos, Va.
    - apply mul_finite; [exact Fa|exact Fb|]. rewrite Ma, Mb, <- Sa, <- Sb. cbn [sign_of]. change (amount prec emax (S754_zero t)) with 0%Z.
      rewrite signed_xor, Z.mul_0_r. replace (with_sign (xorb s t) 0) with 0%Z by (destruct s, t; reflexivity). apply zero_rounds, unit_pos.
    - apply mul_finite; [exact Fa|exact Fb|]. rewrite Ma, Mb, <- Sa, <- Sb. cbn [sign_of]. rewrite signed_xor.
      pose proof (finite_pos s m e Va) as Pa. pose proof (finite_pos t n g Vb) as Pb.
      assert (0 < amount prec emax (S754_finite s m e) * amount prec emax (S754_finite t n g))%Z by (apply Z.mul_pos_pos; assumption).
      apply correct_rounds; [lia|apply unit_pos|lia|]. rewrite unit_is.
      apply (mul_correct prec emax is_prec is_emax is_emin (xorb s t) m e n g); assumption.
  Qed.

  Lemma div_ok a b : in_format mb eb a -> in_format mb eb b -> arithmetic mb eb Div a b (float_op f FDiv a b).
  Proof.
    intros Ia Ib. unfold float_op. pose proof (decode a Ia) as Da. pose proof (decode b Ib) as Db.
    revert Da Db. generalize (of_bits f a) (of_bits f b). intros x y Da Db. fold prec emax.
    destruct Da as [Fa|s Fa|[s|s| |s m e] Fa Va Sa Ma]; try (destruct Va; fail);
      destruct Db as [Fb|t Fb|[t|t| |t n g] Fb Vb Sb Mb]; try (destruct Vb; fail); cbn [SFdiv];
      try (apply nan_operand; [auto|apply encode_nan]; fail).
    - subst a b. apply div_infinities, encode_nan.
    - subst a. rewrite encode_inf. cbn [sign_of] in Sb. rewrite Sb. now apply div_infinite_l.
    - subst a. rewrite encode_inf. cbn [sign_of] in Sb. rewrite Sb. now apply div_infinite_l.
    - subst b. rewrite encode_zero. cbn [sign_of] in Sa. rewrite Sa. now apply div_infinite_r.
    - apply div_zeros; [exact Fa|exact Fb|rewrite Ma; now destruct s|rewrite Mb; now destruct t|apply encode_nan].
    - pose proof (finite_pos t n g Vb) as Pb.
      apply div_finite; [exact Fa|exact Fb|rewrite Mb; now apply signed_nonzero|]. rewrite Ma, Mb, <- Sa, <- Sb. cbn [sign_of].
      change (amount prec emax (S754_zero s)) with 0%Z. replace (with_sign s 0) with 0%Z by now destruct s. rewrite !Z.mul_0_l.
      apply zero_rounds. apply Z.abs_pos. now apply signed_nonzero.
    - subst b. rewrite encode_zero. cbn [sign_of] in Sa. rewrite Sa. now apply div_infinite_r.
    - pose proof (finite_pos s m e Va) as Pa. rewrite encode_inf. cbn [sign_of] in Sa, Sb. rewrite Sa, Sb.
      apply div_by_zero; [exact Fa|exact Fb|rewrite Ma; now apply signed_nonzero|rewrite Mb; now destruct t].
    - pose proof (finite_pos s m e Va) as Pa. pose proof (finite_pos t n g Vb) as Pb.
      apply div_finite; [exact Fa|exact Fb|rewrite Mb; now apply signed_nonzero|]. rewrite Ma, Mb, <- Sa, <- Sb. cbn [sign_of].
      set (A := amount prec emax (S754_finite s m e)) in *. set (B := amount prec emax (S754_finite t n g)) in *.
      replace (Z.abs (with_sign t B)) with B by (destruct t; cbn [with_sign]; lia).
      replace (Z.sgn (with_sign t B)) with (with_sign t 1) by (destruct t; cbn [with_sign]; [rewrite Z.sgn_opp|]; rewrite Z.sgn_pos; trivial).
      pose proof unit_pos as UP.
      replace (with_sign s A * 2 ^ Z.of_N (unit_exponent mb eb) * with_sign t 1)%Z
        with (with_sign (xorb s t) (A * 2 ^ Z.of_N (unit_exponent mb eb))) by (destruct s, t; cbn [with_sign xorb]; ring).
      assert (0 < A * 2 ^ Z.of_N (unit_exponent mb eb))%Z by (apply Z.mul_pos_pos; assumption).
      apply correct_rounds; [lia|exact Pb|lia|]. rewrite unit_is. destruct Va as (Ea & _). destruct Vb as (Eb & _).
      apply (div_correct prec emax is_prec is_emax is_emin (xorb s t) m e n g); lia.
  Qed.

  Lemma signed_rem s t x y : (0 <= x)%Z -> (0 < y)%Z -> Z.rem (with_sign s x) (with_sign t y) = with_sign s (x mod y).
  Proof.
    intros Px Py. rewrite <- (Z.rem_mod_nonneg x y) by lia.
    destruct s, t; cbn [with_sign]; rewrite ?Z.rem_opp_l, ?Z.rem_opp_r by lia; reflexivity.
  Qed.

  Lemma encode_unique x a : in_format mb eb a -> valid prec emax x -> sign_of x = negative mb eb a ->
    measure mb eb a = with_sign (sign_of x) (amount prec emax x) -> to_bits f x = a.
  Proof.
    intros I V S M. destruct (encode x V) as ((F & _) & Ng & Ms & _).
    apply measure_inj; [exact F|exact I|now rewrite Ng|now rewrite Ms, M].
  Qed.

  Lemma rem_ok a b : in_format mb eb a -> in_format mb eb b -> arithmetic mb eb Rem a b (float_op f FRem a b).
  Proof.
    intros Ia Ib. unfold float_op. pose proof (decode a Ia) as Da. pose proof (decode b Ib) as Db.
    revert Da Db. generalize (of_bits f a) (of_bits f b). intros x y Da Db.
    destruct Da as [Fa|s Fa|[s|s| |s m e] Fa Va Sa Ma]; try (destruct Va; fail);
      destruct Db as [Fb|t Fb|[t|t| |t n g] Fb Vb Sb Mb]; try (destruct Vb; fail); cbn [fmod];
      try (apply nan_operand; [auto|apply encode_nan]; fail).
    - subst a b. apply rem_infinities, encode_nan.
    - subst a. apply rem_infinite_l; [exact Fb|apply encode_nan].
    - subst a. apply rem_infinite_l; [exact Fb|apply encode_nan].
    - subst b.
      assert (X : to_bits f (S754_zero s) = a) by (apply encode_unique; assumption).
      rewrite X. now apply rem_infinite_r.
    - apply rem_by_zero; [exact Fa|exact Fb|rewrite Mb; now destruct t|apply encode_nan].
    - pose proof (finite_pos t n g Vb) as Pb. destruct (encode (S754_zero s) Logic.I) as (F & Ng & Ms & _).
      apply rem_finite; [exact Fa|exact Fb|rewrite Mb; now apply signed_nonzero|exact F| |now rewrite Ng].
      rewrite Ms, Ma, Mb. cbn [sign_of]. change (amount prec emax (S754_zero s)) with 0%Z.
      replace (with_sign s 0) with 0%Z by now destruct s. rewrite Z.rem_0_l; [reflexivity|]. now apply signed_nonzero.
    - subst b. assert (X : to_bits f (S754_finite s m e) = a) by (apply encode_unique; assumption).
      rewrite X. now apply rem_infinite_r.
    - apply rem_by_zero; [exact Fa|exact Fb|rewrite Mb; now destruct t|apply encode_nan].
    - pose proof (finite_pos s m e Va) as Pa. pose proof (finite_pos t n g Vb) as Pb. fold prec emax.
      set (c := Z.min e g). set (r := ((Zpos m * 2 ^ (e - c)) mod (Zpos n * 2 ^ (g - c)))%Z).
      pose proof Va as (Ea & La & _). pose proof Vb as (Eb & Lb & _). fold emin in Ea, Eb.
      assert (Pc : (0 < 2 ^ (c - emin))%Z) by (apply Z.pow_pos_nonneg; unfold c; lia).
      assert (P1 : (0 < 2 ^ (e - c))%Z) by (apply Z.pow_pos_nonneg; unfold c; lia).
      assert (P2 : (0 < 2 ^ (g - c))%Z) by (apply Z.pow_pos_nonneg; unfold c; lia).
      pose proof (amount_align false m e c ltac:(unfold c; lia)) as A1. pose proof (amount_align false n g c ltac:(unfold c; lia)) as A2.
      cbn [with_sign] in A1, A2. set (x := (Zpos m * 2 ^ (e - c))%Z) in *. set (y := (Zpos n * 2 ^ (g - c))%Z) in *.
      assert (Px : (0 < x)%Z) by (unfold x; apply Z.mul_pos_pos; lia). assert (Py : (0 < y)%Z) by (unfold y; apply Z.mul_pos_pos; lia).
      assert (Br : (0 <= r < y)%Z) by (apply Z.mod_pos_bound; exact Py).
      assert (Rx : (r <= x)%Z) by (apply Z.mod_le; lia).
      assert (Rep : representable prec (r * 2 ^ (c - emin))).
      { exists r, (c - emin)%Z. split; [apply Z.abs_eq; apply Z.mul_nonneg_nonneg; lia|]. split; [|unfold c; lia]. split; [lia|].
        destruct (Z.le_ge_cases e g) as [L|L].
        - assert (x = Zpos m) by (unfold x; replace (e - c)%Z with 0%Z by (unfold c; lia); apply Z.mul_1_r). lia.
        - assert (y = Zpos n) by (unfold y; replace (g - c)%Z with 0%Z by (unfold c; lia); apply Z.mul_1_r). lia. }
      assert (Bd : (r * 2 ^ (c - emin) < bound prec emax)%Z).
      { apply Z.le_lt_trans with (amount prec emax (S754_finite s m e)).
        - change (amount prec emax (S754_finite s m e)) with (amount prec emax (S754_finite false m e)). rewrite A1. apply Z.mul_le_mono_nonneg_r; lia.
        - destruct (exact_correct prec emax is_prec is_emax is_emin (S754_finite s m e) Va) as [_ C].
          destruct (Z.lt_ge_cases (amount prec emax (S754_finite s m e)) (bound prec emax)) as [K|K]; [exact K|].
          rewrite Z.mul_1_l in C. discriminate (C K). }
      assert (R : exists v, to_bits f (binary_normalize prec emax (if s then - r else r) c s) = to_bits f v /\ valid prec emax v /\ sign_of v = s /\
                amount prec emax v = (r * 2 ^ (c - emin))%Z).
      { destruct (Z.eq_dec r 0) as [R0|R0].
        - exists (S754_zero s). rewrite R0. split; [now destruct s|]. split; [exact Logic.I|]. split; [reflexivity|]. reflexivity.
        - exists (binary_round prec emax s (Z.to_pos r) c).
          split; [f_equal; destruct r as [|q|q]; try lia; now destruct s|].
          apply correct_exact; [split; [apply Z.mul_nonneg_nonneg; lia|exact Bd]|exact Rep|].
          pose proof (binary_round_correct prec emax is_prec is_emax is_emin s (Z.to_pos r) c ltac:(unfold c; fold emin; lia)) as BC.
          rewrite Z2Pos.id in BC by lia. exact BC. }
      destruct R as (v & -> & Vv & Sv & Av). destruct (encode v Vv) as (F & Ng & Ms & _).
      apply rem_finite; [exact Fa|exact Fb|rewrite Mb; now apply signed_nonzero|exact F| |now rewrite Ng, Sv].
      rewrite Ms, Sv, Av, Ma, Mb. cbn [sign_of]. rewrite signed_rem by lia. f_equal.
      change (amount prec emax (S754_finite s m e)) with (amount prec emax (S754_finite false m e)).
      change (amount prec emax (S754_finite t n g)) with (amount prec emax (S754_finite false n g)).
      rewrite A1, A2, Z.mul_mod_distr_r by lia. reflexivity.
  Qed.
End Bits.

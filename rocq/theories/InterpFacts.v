(** Lemmas about single instructions of the interpreter. *)
From Coq Require Import NArith ZArith String List Bool Lia Znumtheory.
From Coq.Strings Require Import Byte.
From Verif Require Import Base BaseFacts Metadata Runtime Value Opcodes Gc Interp SpecExec.
Import ListNotations.
Open Scope N_scope.

Ltac Zify.zify_post_hook ::= Z.div_mod_to_equations.

(** ** Integers *)

Lemma ity_eqb_refl t : ity_eqb t t = true.
Proof. now destruct t. Qed.
Lemma ity_eqb_eq t u : ity_eqb t u = true -> t = u.
Proof. destruct t, u; easy. Qed.

Lemma in_ity_fits t x : in_ity t x = true <-> fits t x.
Proof. unfold in_ity. rewrite andb_true_iff, !Z.leb_le. destruct t; cbv [imin imax isigned ibits fits]; cbn; lia. Qed.
Lemma in_ity_out t x : in_ity t x = false <-> ~ fits t x.
Proof. rewrite <- in_ity_fits. destruct (in_ity t x); split; congruence. Qed.

Lemma width_bits t : Z.of_N (ibits t) = width t.
Proof. now destruct t. Qed.

Lemma wrap_spec t x : twos_complement t x (wrap t x).
Proof.
  unfold twos_complement, same_bits. split.
  - unfold wrap, wrap_signed. destruct t; cbn [isigned ibits fits];
      match goal with |- context [Z.modulo ?a ?b] => pose proof (Z.mod_pos_bound a b ltac:(reflexivity)) end;
      cbn in *; lia.
  - unfold wrap, wrap_signed. rewrite width_bits. destruct (isigned t).
    + exists (- ((x + 2 ^ (width t - 1)) / 2 ^ width t))%Z.
      pose proof (Z.div_mod (x + 2 ^ (width t - 1)) (2 ^ width t) ltac:(destruct t; easy)). lia.
    + exists (- (x / 2 ^ width t))%Z.
      pose proof (Z.div_mod x (2 ^ width t) ltac:(destruct t; easy)). lia.
Qed.

Lemma fits_same t x y : fits t x -> fits t y -> same_bits (width t) x y -> x = y.
Proof. intros A B [k E]. destruct t; cbn in *; lia. Qed.

Lemma wrap_fits t x : fits t x -> wrap t x = x.
Proof. intro F. destruct (wrap_spec t x) as [A B]. now apply (fits_same t). Qed.

Lemma to_signed_fits_32 x : x < 2 ^ 32 -> fits I32 (to_signed 32 x).
Proof. intro H. unfold to_signed, fits. destruct (N.ltb_spec x (2 ^ (32 - 1))); cbn in *; lia. Qed.

(** Bits: the high bits of a number of type [t] all equal its sign. *)
Lemma fits_bits t x : fits t x <->
  (if isigned t then (- 2 ^ (width t - 1) <= x < 2 ^ (width t - 1))%Z else (0 <= x < 2 ^ width t)%Z).
Proof. destruct t; cbn; lia. Qed.

Lemma signed_range_bits w x : (0 <= w)%Z ->
  (- 2 ^ w <= x < 2 ^ w)%Z <-> forall i, (w <= i)%Z -> Z.testbit x i = Z.testbit x w.
Proof.
  intro W. split.
  - intros [A B] i I. destruct (Z.neg_nonneg_cases x) as [Neg|Pos].
    + rewrite !Z.bits_iff_neg_ex in Neg.
      assert (K : forall j, (w <= j)%Z -> Z.testbit x j = true).
      { intros j J. assert (E : x = Z.lnot (- x - 1)) by (unfold Z.lnot; lia).
        rewrite E, Z.lnot_spec by lia.
        assert (Z.testbit (- x - 1) j = false).
        { assert (- x - 1 = 0 \/ 0 < - x - 1)%Z as [->|P] by
            (assert (x < 0)%Z by (apply Z.bits_iff_neg_ex; auto); lia).
          - apply Z.bits_0.
          - apply Z.bits_above_log2; [lia|]. apply Z.log2_lt_pow2; [lia|].
            apply Z.lt_le_trans with (2 ^ w)%Z; [lia|]. apply Z.pow_le_mono_r; lia. }
        rewrite H. reflexivity. }
      now rewrite !K by lia.
    + assert (K : forall j, (w <= j)%Z -> Z.testbit x j = false).
      { intros j J. assert (x = 0 \/ 0 < x)%Z as [->|P] by lia; [apply Z.bits_0|].
        apply Z.bits_above_log2; [lia|]. apply Z.log2_lt_pow2; [lia|].
        apply Z.lt_le_trans with (2 ^ w)%Z; [lia|]. apply Z.pow_le_mono_r; lia. }
      now rewrite !K by lia.
  - intro H. destruct (Z.testbit x w) eqn:E.
    + assert (0 <= Z.lnot x < 2 ^ w)%Z; [|unfold Z.lnot in *; lia].
      assert (Z.lnot x = Z.lnot x mod 2 ^ w)%Z as ->; [|apply Z.mod_pos_bound; lia].
      apply Z.bits_inj'. intros i I. rewrite <- Z.land_ones, Z.land_spec by lia.
      destruct (Z.lt_ge_cases i w).
      * rewrite Z.ones_spec_low by lia. now rewrite andb_true_r.
      * rewrite Z.lnot_spec, H by lia. reflexivity.
    + assert (0 <= x < 2 ^ w)%Z; [|lia].
      assert (x = x mod 2 ^ w)%Z as ->; [|apply Z.mod_pos_bound; lia].
      apply Z.bits_inj'. intros i I. rewrite <- Z.land_ones, Z.land_spec by lia.
      destruct (Z.lt_ge_cases i w).
      * rewrite Z.ones_spec_low by lia. now rewrite andb_true_r.
      * rewrite H by lia. reflexivity.
Qed.

Lemma unsigned_range_bits w x : (0 <= w)%Z ->
  (0 <= x < 2 ^ w)%Z <-> forall i, (w <= i)%Z -> Z.testbit x i = false.
Proof.
  intro W. split.
  - intros [A B] i I. assert (x = 0 \/ 0 < x)%Z as [->|P] by lia; [apply Z.bits_0|].
    apply Z.bits_above_log2; [lia|]. apply Z.log2_lt_pow2; [lia|].
    apply Z.lt_le_trans with (2 ^ w)%Z; [lia|]. apply Z.pow_le_mono_r; lia.
  - intro H. assert (x = x mod 2 ^ w)%Z as ->; [|apply Z.mod_pos_bound; lia].
    apply Z.bits_inj'. intros i I. rewrite <- Z.land_ones, Z.land_spec by lia.
    destruct (Z.lt_ge_cases i w).
    + rewrite Z.ones_spec_low by lia. now rewrite andb_true_r.
    + rewrite H by lia. reflexivity.
Qed.

Lemma bitwise_fits t a b r g :
  (forall i, (0 <= i)%Z -> Z.testbit r i = g (Z.testbit a i) (Z.testbit b i)) -> g false false = false ->
  fits t a -> fits t b -> fits t r.
Proof.
  intros R G A B. apply fits_bits in A, B. apply fits_bits. destruct (isigned t) eqn:S.
  - apply signed_range_bits; [destruct t; easy|]. intros i I.
    assert (0 <= width t - 1)%Z by (destruct t; easy).
    rewrite !R by lia.
    rewrite signed_range_bits in A, B by auto. now rewrite A, B by auto.
  - assert (0 <= width t)%Z by (destruct t; easy).
    apply unsigned_range_bits; auto. intros i I.
    rewrite R by lia. rewrite unsigned_range_bits in A, B by auto. now rewrite A, B by auto.
Qed.

(** ** Fetching *)

Lemma code_at_here fr bs i b s : code_here fr bs -> nth_error bs i = Some b ->
  code_at fr (fr_ip fr + N.of_nat i) s = Ok (bn b) s.
Proof.
  intros (pre & post & C & I) H. unfold code_at. rewrite C, I.
  replace (N.to_nat (len pre + N.of_nat i)) with (List.length pre + i)%nat by (unfold len; lia).
  rewrite nth_error_app2 by lia. replace (List.length pre + i - List.length pre)%nat with i by lia.
  rewrite nth_error_app1 by (apply nth_error_Some; congruence). now rewrite H.
Qed.

Lemma fetch1 fr b bs op s : code_here fr (b :: bs) -> bn b <= 0xf8 -> from_u16 (bn b) = Some op ->
  get_opcode fr s = Ok (op, set_ip fr (fr_ip fr + 1)) s.
Proof.
  intros C L F. unfold get_opcode, bind.
  pose proof (code_at_here fr (b :: bs) 0 b s C eq_refl) as H. rewrite N.add_0_r in H. rewrite H.
  change (opcode_code Prefix7) with 0xf8.
  destruct (N.ltb_spec 0xf8 (bn b)); [lia|]. rewrite F. reflexivity.
Qed.

Lemma fetch2 fr b c bs op s : code_here fr (b :: c :: bs) -> 0xf8 < bn b ->
  from_u16 (N.lor (bn c) (N.shiftl (bn b) 8)) = Some op ->
  get_opcode fr s = Ok (op, set_ip fr (fr_ip fr + 2)) s.
Proof.
  intros C L F. unfold get_opcode, bind.
  pose proof (code_at_here fr (b :: c :: bs) 0 b s C eq_refl) as H. rewrite N.add_0_r in H. rewrite H.
  change (opcode_code Prefix7) with 0xf8.
  destruct (N.ltb_spec 0xf8 (bn b)); [|lia].
  pose proof (code_at_here fr (b :: c :: bs) 1 c s C eq_refl) as H1. change (N.of_nat 1) with 1 in H1.
  rewrite H1, F. reflexivity.
Qed.

Lemma code_here_drop fr bs bs' : code_here fr (bs ++ bs') -> code_here (set_ip fr (fr_ip fr + len bs)) bs'.
Proof.
  intros (pre & post & C & I). exists (pre ++ bs), post. cbn. split.
  - rewrite C. now rewrite <- !app_assoc.
  - rewrite I, len_app. reflexivity.
Qed.
Lemma code_here_prefix fr bs bs' : code_here fr (bs ++ bs') -> code_here fr bs.
Proof. intros (pre & post & C & I). exists pre, (bs' ++ post). split; auto. rewrite C. now rewrite <- app_assoc. Qed.

Lemma il_get_here fr bs n s : code_here fr bs -> len bs = n ->
  il_get fr n s = Ok (le_dec bs, set_ip fr (fr_ip fr + n)) s.
Proof.
  intros (pre & post & C & I) L. unfold il_get.
  rewrite C, I, !len_app. destruct (N.leb_spec (len pre + n) (len pre + (len bs + len post))); [|lia].
  unfold ret. do 3 f_equal. subst n. apply sub_list_app.
Qed.

Lemma number_le_dec bs : number bs = Z.of_N (le_dec bs).
Proof. induction bs; cbn [number le_dec]; [reflexivity|]. rewrite IHbs. unfold bn. lia. Qed.

Lemma signed_number_le_dec bs : bs <> [] -> signed_number bs = to_signed (8 * len bs) (le_dec bs).
Proof.
  intro NE. unfold signed_number, to_signed. rewrite number_le_dec. unfold len.
  replace (8 * Z.of_nat (List.length bs))%Z with (Z.of_N (8 * N.of_nat (List.length bs))) by lia.
  set (w := 8 * N.of_nat (List.length bs)).
  destruct bs as [|b bs].
  - easy.
  - assert (1 <= w) by (unfold w; cbn [List.length]; lia).
    replace (2 ^ (Z.of_N w - 1))%Z with (Z.of_N (2 ^ (w - 1))) by (rewrite N2Z.inj_pow; f_equal; lia).
    destruct (Z.ltb_spec (Z.of_N (le_dec (b :: bs))) (Z.of_N (2 ^ (w - 1))));
      destruct (N.ltb_spec (le_dec (b :: bs)) (2 ^ (w - 1))); lia || reflexivity.
Qed.

Lemma il_signed_here fr bs n s : code_here fr bs -> len bs = n -> n <> 0 ->
  il_signed fr n s = Ok (signed_number bs, set_ip fr (fr_ip fr + n)) s.
Proof.
  intros C L NZ. unfold il_signed, bind. rewrite (il_get_here _ _ _ _ C L). unfold ret. cbn.
  rewrite signed_number_le_dec, L; [reflexivity|]. intros ->. now apply NZ.
Qed.

(** ** Shapes *)

Lemma frame_at_set fr ip : frame_at fr (set_ip fr ip) ip.
Proof. unfold frame_at. cbn. auto 10. Qed.
Lemma operands_set s l : operands_become s (set_operands s l) l.
Proof. unfold operands_become. cbn. auto 10. Qed.

Lemma pop_run s v l : x_operands s = v :: l -> pop s = Ok v (set_operands s l).
Proof. intro E. unfold pop, try_pop, bind. now rewrite E. Qed.
Lemma set_operands_twice s l m : set_operands (set_operands s l) m = set_operands s m.
Proof. reflexivity. Qed.
Lemma set_operands_same s : set_operands s (x_operands s) = s.
Proof. now destruct s. Qed.

Lemma pop2_run s b a l : x_operands s = b :: a :: l -> forall B (k : value -> value -> M machine B),
  (b <- pop ;; a <- pop ;; k b a) s = k b a (set_operands s l).
Proof.
  intros E B k. unfold bind at 1. rewrite (pop_run s b (a :: l) E). unfold bind.
  rewrite (pop_run (set_operands s (a :: l)) a l eq_refl). reflexivity.
Qed.

Lemma op2_run fr f s b a l : x_operands s = b :: a :: l ->
  op2 fr f s = (v <- f a b ;; push v ;;; next fr) (set_operands s l).
Proof. intro E. unfold op2. now rewrite (pop2_run s b a l E). Qed.

Lemma op1_run fr f s a l : x_operands s = a :: l ->
  op1 fr f s = (v <- f a ;; push v ;;; next fr) (set_operands s l).
Proof. intro E. unfold op1, bind at 1. now rewrite (pop_run s a l E). Qed.

Lemma step1 f p fr b bs op s : code_here fr (b :: bs) -> bn b <= 0xf8 -> from_u16 (bn b) = Some op ->
  step f p fr s = exec_op f p op (set_ip fr (fr_ip fr + 1)) s.
Proof. intros C L F. unfold step, bind. now rewrite (fetch1 fr b bs op s C L F). Qed.
Lemma step2 f p fr b c bs op s : code_here fr (b :: c :: bs) -> 0xf8 < bn b ->
  from_u16 (N.lor (bn c) (N.shiftl (bn b) 8)) = Some op ->
  step f p fr s = exec_op f p op (set_ip fr (fr_ip fr + 2)) s.
Proof. intros C L F. unfold step, bind. now rewrite (fetch2 fr b c bs op s C L F). Qed.

(** Replace [step] by the effect of the instruction that [C] shows to be at the instruction
    pointer. *)
Ltac step_at C :=
  match type of C with
  | code_here _ (?b :: ?c :: _) =>
      let v := eval vm_compute in (from_u16 (bn b)) in
      match v with
      | Some ?op => rewrite (step1 _ _ _ b _ op _ C) by (vm_compute; easy)
      end
  | code_here _ (?b :: _) =>
      let v := eval vm_compute in (from_u16 (bn b)) in
      match v with Some ?op => rewrite (step1 _ _ _ b _ op _ C) by (vm_compute; easy) end
  end; cbv beta iota zeta delta [exec_op].
Ltac step_at2 C :=
  match type of C with
  | code_here _ (?b :: ?c :: _) =>
      let v := eval vm_compute in (from_u16 (N.lor (bn c) (N.shiftl (bn b) 8))) in
      match v with Some ?op => rewrite (step2 _ _ _ b c _ op _ C) by (vm_compute; easy) end
  end; cbv beta iota zeta delta [exec_op].

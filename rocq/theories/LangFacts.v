(** The interpreter on compiled programs of SpecLang. *)
From Coq Require Import NArith ZArith String List Bool Lia.
From Coq.Strings Require Import Byte.
From Verif Require Import Base BaseFacts Metadata Runtime Value Opcodes Gc Interp SpecExec SpecFrames SpecStack SpecRuntime SpecLang
  InterpFacts TraceFacts StackFacts PropsValue PropsCompare PropsDecode.
Import ListNotations.
Open Scope N_scope.

(** ** Sequences of instructions *)

Section Reach.
  Variable p : profile.
  Inductive reach : nat -> frame -> machine -> frame -> machine -> Prop :=
  | reach_0 fr s : reach 0 fr s fr s
  | reach_S n fr s fr1 s1 fr2 s2 : (forall f, step f p fr s = Ok (ONext fr1) s1) -> reach n fr1 s1 fr2 s2 ->
      reach (S n) fr s fr2 s2.

  Lemma reach_trans n fr s fr1 s1 m fr2 s2 : reach n fr s fr1 s1 -> reach m fr1 s1 fr2 s2 -> reach (n + m) fr s fr2 s2.
  Proof. induction 1; intro H'; [exact H'|]. cbn [Nat.add]. econstructor; eauto. Qed.
  Lemma reach_1 fr s fr1 s1 : (forall f, step f p fr s = Ok (ONext fr1) s1) -> reach 1 fr s fr1 s1.
  Proof. intro H. econstructor; [exact H|constructor]. Qed.

  Lemma reach_run n fr s fr' s' k : reach n fr s fr' s' -> run (n + k) p fr s = run k p fr' s'.
  Proof.
    induction 1 as [|n fr s fr1 s1 fr2 s2 E R IH]; [reflexivity|].
    cbn [Nat.add run]. unfold bind. now rewrite E.
  Qed.
  Lemma reach_short n fr s fr' s' k : reach n fr s fr' s' -> (k <= n)%nat -> (k < n)%nat -> run k p fr s = NoFuel.
  Proof.
    intro R. revert k. induction R as [|n fr s fr1 s1 fr2 s2 E R IH]; intros k L1 L2; [lia|].
    destruct k as [|k]; [reflexivity|]. cbn [run]. unfold bind. rewrite E. apply IH; lia.
  Qed.
  (** With enough fuel to finish, what is left after [n] instructions is enough to finish the rest. *)
  Lemma reach_rest n fr s fr' s' k : reach n fr s fr' s' -> run k p fr s <> NoFuel ->
    (n <= k)%nat /\ run k p fr s = run (k - n) p fr' s'.
  Proof.
    intros R H. destruct (Nat.lt_ge_cases k n) as [L|L]; [destruct H; eapply reach_short; eauto; lia|].
    split; [exact L|]. replace k with (n + (k - n))%nat at 1 by lia. now apply reach_run.
  Qed.

  (** Some state that satisfies [P] is reached, after [k] instructions or more. *)
  Definition eventually (k : nat) (P : frame -> machine -> Prop) (fr : frame) (s : machine) : Prop :=
    exists n fr' s', reach (k + n) fr s fr' s' /\ P fr' s'.
  Lemma eventually_now (P : frame -> machine -> Prop) fr s : P fr s -> eventually 0 P fr s.
  Proof. intro H. exists 0%nat, fr, s. split; [constructor|exact H]. Qed.
  Lemma eventually_reach n k (P : frame -> machine -> Prop) fr s fr' s' : reach n fr s fr' s' -> eventually k P fr' s' -> eventually (n + k) P fr s.
  Proof.
    intros R (m & fr1 & s1 & R1 & H). exists m, fr1, s1. split; [|exact H].
    rewrite <- Nat.add_assoc. eapply reach_trans; eauto.
  Qed.
  Lemma eventually_less k (P : frame -> machine -> Prop) fr s : eventually k P fr s -> eventually 0 P fr s.
  Proof. intros (m & fr1 & s1 & R1 & H). exists (k + m)%nat, fr1, s1. now split. Qed.
  Lemma eventually_back fr1 s1 (P : frame -> machine -> Prop) fr s : (forall f, step f p fr s = Ok (ONext fr1) s1) -> ~ P fr s ->
    eventually 0 P fr s -> eventually 0 P fr1 s1.
  Proof.
    intros E N (m & fr2 & s2 & R & H). cbn [Nat.add] in R. inversion R as [|n' f0 s0 f1 s1' f2 s2' E' R' E1 E2 E3]; subst; [contradiction|].
    specialize (E 0%nat). specialize (E' 0%nat). rewrite E in E'. injection E' as <- <-. exists n', fr2, s2. now split.
  Qed.
End Reach.

Lemma frame_at_eq fr fr' ip : frame_at fr fr' ip -> fr' = set_ip fr ip.
Proof. intros (A & B & C & D & E & F). destruct fr, fr'. unfold set_ip. cbn in *. congruence. Qed.
Lemma operands_become_eq s s' l : operands_become s s' l -> s' = set_operands s l.
Proof. intros (A & B & C & D & E & F). destruct s, s'. unfold set_operands. cbn in *. congruence. Qed.
Lemma continues_eq fr s n l r : continues fr s n l r -> r = Ok (ONext (set_ip fr (fr_ip fr + n))) (set_operands s l).
Proof.
  intros (fr' & s' & -> & F & O). apply frame_at_eq in F. apply operands_become_eq in O. now subst.
Qed.
Lemma branches_eq fr s n d l r : branches fr s n d l r ->
  r = Ok (ONext (set_ip fr (Z.to_N (Z.of_N (fr_ip fr + n) + d)))) (set_operands s l).
Proof.
  intros (fr' & s' & ip & -> & F & I & O). apply frame_at_eq in F. apply operands_become_eq in O. subst.
  rewrite <- I, N2Z.id. reflexivity.
Qed.
Lemma continues_reach p fr s n l : (forall f, continues fr s n l (step f p fr s)) ->
  reach p 1 fr s (set_ip fr (fr_ip fr + n)) (set_operands s l).
Proof. intro H. apply reach_1. intro f. apply continues_eq, H. Qed.

(** ** Numbers *)

Lemma is_int32_spec z : is_int32 z = true <-> int32 z.
Proof. unfold is_int32, int32. rewrite andb_true_iff, !Z.leb_le. reflexivity. Qed.
Lemma is_int32_false z : is_int32 z = false -> ~ fits I32 z.
Proof. intros H G. change (int32 z) in G. apply is_int32_spec in G. congruence. Qed.

Lemma wrap32_int32 z : int32 (wrap32 z).
Proof. unfold wrap32, int32. pose proof (Z.mod_pos_bound (z + 2147483648) 4294967296 ltac:(lia)). lia. Qed.
Lemma twos_complement_wrap z r : twos_complement I32 z r -> r = wrap32 z.
Proof.
  intros (F & k & E). cbn in F. change (2 ^ width I32)%Z with 4294967296%Z in E. unfold wrap32.
  replace (z + 2147483648)%Z with (r + 2147483648 + (- k) * 4294967296)%Z by lia.
  rewrite Z.mod_add by lia. rewrite Z.mod_small; lia.
Qed.
Lemma low_bits x y : int32 x -> int32 y -> (forall k, (0 <= k < 32)%Z -> Z.testbit x k = Z.testbit y k) -> x = y.
Proof.
  intros X Y H.
  assert (E : (x mod 2 ^ 32 = y mod 2 ^ 32)%Z).
  { apply Z.bits_inj'. intros k K. destruct (Z.ltb_spec k 32).
    - rewrite !Z.mod_pow2_bits_low by lia. apply H. lia.
    - rewrite !Z.mod_pow2_bits_high by lia. reflexivity. }
  change (2 ^ 32)%Z with 4294967296%Z in E. unfold int32 in *.
  pose proof (Z.div_mod x 4294967296 ltac:(lia)). pose proof (Z.div_mod y 4294967296 ltac:(lia)).
  pose proof (Z.mod_pos_bound x 4294967296 ltac:(lia)). lia.
Qed.

Lemma number_range bs : (0 <= number bs < 2 ^ (8 * Z.of_nat (List.length bs)))%Z.
Proof.
  induction bs as [|b bs IH]; [cbn; lia|]. cbn [number List.length].
  replace (8 * Z.of_nat (S (List.length bs)))%Z with (8 + 8 * Z.of_nat (List.length bs))%Z by lia.
  rewrite Z.pow_add_r by lia. change (2 ^ 8)%Z with 256%Z. pose proof (Byte.to_N_bounded b). lia.
Qed.
Lemma signed_number_range bs : (0 < List.length bs)%nat ->
  (- 2 ^ (8 * Z.of_nat (List.length bs) - 1) <= signed_number bs < 2 ^ (8 * Z.of_nat (List.length bs) - 1))%Z.
Proof.
  intro L. unfold signed_number. pose proof (number_range bs) as R. set (w := (8 * Z.of_nat (List.length bs))%Z) in *.
  assert (E : (2 ^ w = 2 * 2 ^ (w - 1))%Z) by (rewrite <- Z.pow_succ_r by lia; f_equal; lia).
  destruct (Z.ltb_spec (number bs) (2 ^ (w - 1))); lia.
Qed.

(** ** One operation *)

Definition panics_at (p : profile) (fr : frame) (s : machine) : Prop := forall f, panics (step f p fr s).

(** The instruction of [n] bytes does what [a] says. *)
Definition gives (p : profile) (fr : frame) (s : machine) (n : N) (l : list value) (a : answer) : Prop :=
  match a with
  | Gives z => int32 z /\ forall f, continues fr s n (VInt I32 z :: l) (step f p fr s)
  | Trap => panics_at p fr s
  | Unspecified => True
  end.

Lemma gives_reduce p fr s n l x :
  (forall f, (fits I32 x -> continues fr s n (VInt I32 x :: l) (step f p fr s)) /\
    (~ fits I32 x -> p = Debug -> panics (step f p fr s)) /\
    (~ fits I32 x -> p = Release ->
       exists r, twos_complement I32 x r /\ continues fr s n (VInt I32 r :: l) (step f p fr s))) ->
  gives p fr s n l (reduce p x).
Proof.
  intro H. unfold reduce. destruct (is_int32 x) eqn:I.
  - apply is_int32_spec in I. split; [exact I|]. intro f. now apply H.
  - apply is_int32_false in I. destruct p.
    + intro f. now apply H.
    + split; [apply wrap32_int32|]. intro f. destruct (proj2 (proj2 (H f)) I eq_refl) as (r & T & C).
      apply twos_complement_wrap in T. now subst.
Qed.

Lemma gives_truth p fr s l (P : Prop) (b : bool) : (b = true <-> P) ->
  (forall f, (P -> continues fr s 2 (VInt I32 1 :: l) (step f p fr s)) /\
             (~ P -> continues fr s 2 (VInt I32 0 :: l) (step f p fr s))) ->
  gives p fr s 2 l (truth b).
Proof.
  intros B H. unfold truth. destruct b.
  - split; [unfold int32; lia|]. intro f. apply H. now apply B.
  - split; [unfold int32; lia|]. intro f. apply H. intro P'. apply B in P'. discriminate.
Qed.

Lemma unary_ok p fr s o i x l : unary_code o i -> code_here fr [i] -> int32 x -> x_operands s = VInt I32 x :: l ->
  gives p fr s 1 l (unary_meaning p o x).
Proof.
  intros U C X E. destruct U; cbn [unary_meaning].
  - apply gives_reduce. intro f. apply (C44_neg f p fr s I32 x l C E X). unfold signed. auto.
  - split; [unfold int32 in *; lia|]. intro f.
    destruct (C44_not f p fr s I32 x l C E X) as (r & F & B & K).
    replace (- x - 1)%Z with r; [exact K|]. apply low_bits; [exact F|unfold int32 in *; lia|].
    intros k K'. rewrite (B k K'). replace (- x - 1)%Z with (Z.lnot x) by (unfold Z.lnot; lia).
    rewrite Z.lnot_spec by lia. reflexivity.
Qed.

Lemma exact_unique a b q r : quotient_remainder a b q r -> b <> 0%Z -> q = (a ÷ b)%Z /\ r = Z.rem a b.
Proof.
  intros (Q1 & Q2 & Q3) NZ. destruct (quot_rem_spec a b NZ) as (R1 & R2 & R3).
  revert R1 R2 R3. generalize (Z.quot a b) (Z.rem a b). intros q' r' R1 R2 R3.
  assert (L : (Z.abs (r' - r) < Z.abs b)%Z) by lia.
  assert (M : ((q - q') * b = r' - r)%Z) by lia.
  assert (q - q' = 0)%Z; [|nia].
  destruct (Z.eq_dec (q - q') 0); [auto|]. exfalso.
  assert (Z.abs b <= Z.abs ((q - q') * b))%Z by (rewrite Z.abs_mul; nia). lia.
Qed.

Lemma binary_ok p fr s o is x y l : binary_code o is -> code_here fr is -> int32 x -> int32 y ->
  x_operands s = VInt I32 y :: VInt I32 x :: l -> gives p fr s (len is) l (binary_meaning p o x y).
Proof.
  intros U C X Y E. destruct U; cbn [binary_meaning]; change (len [_]) with 1; change (len [_; _]) with 2.
  - apply gives_reduce. intro f. now apply (C44_add_sub_mul f p fr s x58 Z.add I32 x y l is_add).
  - apply gives_reduce. intro f. now apply (C44_add_sub_mul f p fr s x59 Z.sub I32 x y l is_sub).
  - apply gives_reduce. intro f. now apply (C44_add_sub_mul f p fr s x5a Z.mul I32 x y l is_mul).
  - pose proof (fun f => C45_div_rem f p fr s x5b I32 x y l (or_introl eq_refl) C E X Y) as D.
    destruct (Z.eqb_spec y 0) as [->|NZ]; [intro f; apply D; auto|].
    destruct (is_int32 (x ÷ y)) eqn:I.
    + apply is_int32_spec in I. split; [exact I|]. intro f. exact (proj2 (proj1 (D f) _ _ (quot_rem_spec x y NZ) I)).
    + apply is_int32_false in I. intro f. apply (proj2 (D f)). right. intros q r Q F.
      apply exact_unique in Q; [|exact NZ]. destruct Q as [-> _]. contradiction.
  - pose proof (fun f => C45_div_rem f p fr s x5d I32 x y l (or_intror eq_refl) C E X Y) as D.
    destruct (Z.eqb_spec y 0) as [->|NZ]; [intro f; apply D; auto|].
    destruct (is_int32 (x ÷ y)) eqn:I.
    + apply is_int32_spec in I. split; [exact (rem_fits I32 x y X NZ)|]. intro f. exact (proj2 (proj1 (D f) _ _ (quot_rem_spec x y NZ) I)).
    + apply is_int32_false in I. intro f. apply (proj2 (D f)). right. intros q r Q F.
      apply exact_unique in Q; [|exact NZ]. destruct Q as [-> _]. contradiction.
  - assert (H : forall f, exists r, r = Z.land x y /\ fits I32 r /\ continues fr s 1 (VInt I32 r :: l) (step f p fr s)).
    { intro f. destruct (C44_and_or_xor f p fr s x5f andb I32 x y l is_and C E X Y) as (r & F & B & K).
      exists r. split; [|auto]. apply Z.bits_inj'. intros k L. rewrite (B k L), Z.land_spec. reflexivity. }
    split; [destruct (H 0%nat) as (r & -> & F & _); exact F|]. intro f. destruct (H f) as (r & -> & _ & K). exact K.
  - assert (H : forall f, exists r, r = Z.lor x y /\ fits I32 r /\ continues fr s 1 (VInt I32 r :: l) (step f p fr s)).
    { intro f. destruct (C44_and_or_xor f p fr s x60 orb I32 x y l is_or C E X Y) as (r & F & B & K).
      exists r. split; [|auto]. apply Z.bits_inj'. intros k L. rewrite (B k L), Z.lor_spec. reflexivity. }
    split; [destruct (H 0%nat) as (r & -> & F & _); exact F|]. intro f. destruct (H f) as (r & -> & _ & K). exact K.
  - assert (H : forall f, exists r, r = Z.lxor x y /\ fits I32 r /\ continues fr s 1 (VInt I32 r :: l) (step f p fr s)).
    { intro f. destruct (C44_and_or_xor f p fr s x61 xorb I32 x y l is_xor C E X Y) as (r & F & B & K).
      exists r. split; [|auto]. apply Z.bits_inj'. intros k L. rewrite (B k L), Z.lxor_spec. reflexivity. }
    split; [destruct (H 0%nat) as (r & -> & F & _); exact F|]. intro f. destruct (H f) as (r & -> & _ & K). exact K.
  - destruct ((0 <=? y) && (y <? 32))%Z eqn:R; [|exact I].
    apply andb_true_iff in R. rewrite Z.leb_le, Z.ltb_lt in R. split; [apply wrap32_int32|]. intro f.
    destruct (proj1 (C44_shl f p fr s I32 x y l C E X Y) R) as (r & T & K). apply twos_complement_wrap in T. now subst.
  - destruct ((0 <=? y) && (y <? 32))%Z eqn:R; [|exact I].
    apply andb_true_iff in R. rewrite Z.leb_le, Z.ltb_lt in R.
    assert (H : forall f, exists r, r = (x / 2 ^ y)%Z /\ fits I32 r /\ continues fr s 1 (VInt I32 r :: l) (step f p fr s)).
    { intro f. destruct (proj1 (C44_shr f p fr s I32 x y l C E X Y) R) as (r & F & B & K). exists r. split; [|auto].
      assert (0 < 2 ^ y)%Z by (apply Z.pow_pos_nonneg; lia).
      apply (Z.div_unique _ _ _ (x - r * 2 ^ y)); lia. }
    split; [destruct (H 0%nat) as (r & -> & F & _); exact F|]. intro f. destruct (H f) as (r & -> & _ & K). exact K.
  - apply (gives_truth p fr s l (exists d, Some (x ?= y)%Z = Some d /\ d = Eq)).
    + rewrite Z.eqb_eq, <- Z.compare_eq_iff. split; [intro H; eauto|intros (d & H & ->); congruence].
    + intro f. apply (C47_compare f p fr s [xfe; x01] _ (VInt I32 x) (VInt I32 y) _ l is_ceq); [exact C|exact E|constructor].
  - apply (gives_truth p fr s l (exists d, Some (x ?= y)%Z = Some d /\ d = Gt)).
    + rewrite Z.ltb_lt. change (y < x)%Z with (y ?= x = Lt)%Z. rewrite Z.compare_antisym.
      split; [intro H; exists Gt; destruct (x ?= y)%Z; try discriminate H; auto|intros (d & H & ->); injection H as ->; reflexivity].
    + intro f. apply (C47_compare f p fr s [xfe; x02] _ (VInt I32 x) (VInt I32 y) _ l is_cgt); [exact C|exact E|constructor].
  - apply (gives_truth p fr s l (exists d, Some (x ?= y)%Z = Some d /\ d = Lt)).
    + rewrite Z.ltb_lt. change (x < y)%Z with (x ?= y = Lt)%Z. split; [intro H; eauto|intros (d & H & ->); congruence].
    + intro f. apply (C47_compare f p fr s [xfe; x04] _ (VInt I32 x) (VInt I32 y) _ l is_clt); [exact C|exact E|constructor].
Qed.

(** ** Variables *)

Definition env_at (fr : frame) (s : machine) (en : env) : Prop :=
  (forall i z, nth_error (e_args en) (N.to_nat i) = Some z -> int32 z /\ variable s (fr_params fr) i (VInt I32 z)) /\
  (forall i o, nth_error (e_locals en) (N.to_nat i) = Some o ->
     exists v, variable s (fr_locals fr) i v /\ forall z, o = Some z -> int32 z /\ v = VInt I32 z).

Definition apart (c d : cells) : Prop :=
  match c, d with
  | CHost, CHost => False
  | CFrames _ b n, CFrames _ b' n' => b + n <= b' \/ b' + n' <= b
  | _, _ => True
  end.

Lemma replace_nth_same {A} i x (l : list A) : (i < List.length l)%nat -> nth_error (replace_nth i x l) i = Some x.
Proof. revert l. induction i as [|i IH]; intros [|y l] L; cbn in *; try lia; [reflexivity|]. apply IH. lia. Qed.
Lemma replace_nth_other {A} i j x (l : list A) : i <> j -> nth_error (replace_nth i x l) j = nth_error l j.
Proof. revert l j. induction i as [|i IH]; intros [|y l] [|j] L; cbn; try easy. apply IH. lia. Qed.
Lemma replace_nth_length {A} i x (l : list A) : List.length (replace_nth i x l) = List.length l.
Proof. revert l. induction i as [|i IH]; intros [|y l]; cbn; auto. Qed.

(** What no statement changes. *)
Record kept (s s' : machine) : Prop := mkKept {
  kp_vm : x_vm s' = x_vm s;
  kp_heap : x_heap s' = x_heap s;
  kp_alloc : x_alloc s' = x_alloc s;
  kp_gen : k_gen (x_frames s') = k_gen (x_frames s);
  kp_cells : List.length (k_cells (x_frames s')) = List.length (k_cells (x_frames s));
  kp_host : List.length (x_host s') = List.length (x_host s);
  kp_operands : x_operands s' = x_operands s }.
Lemma kept_refl s : kept s s.
Proof. now constructor. Qed.
Lemma kept_trans s1 s2 s3 : kept s1 s2 -> kept s2 s3 -> kept s1 s3.
Proof. intros [] []. constructor; congruence. Qed.

(** A variable of another group, or another variable of the same group, keeps its value. *)
Lemma stores_other fr s n c i v l r d j w : stores fr s n c i v l r -> forall fr' s', r = Ok (ONext fr') s' ->
  variable s d j w -> (c = d /\ i <> j) \/ (apart c d /\ exists u, variable s c i u) -> variable s' d j w.
Proof.
  intros (fr1 & s1 & -> & _ & _ & _ & _ & _ & V & G & _ & _ & _ & H) fr' s' E W A. injection E as <- <-.
  destruct c as [|g b m], d as [|g' b' m']; cbn [variable apart] in *.
  - destruct A as [[_ A]|[[] _]]. destruct H as [_ H]. rewrite H by (intro X; apply N2Nat.inj in X; congruence). exact W.
  - destruct H as [H _]. destruct W as (W1 & W2 & W3). rewrite H. auto.
  - destruct H as [H _]. now rewrite H.
  - destruct H as [_ H]. destruct W as (W1 & W2 & W3). split; [congruence|]. split; [exact W2|].
    rewrite H; [exact W3|]. destruct V as (_ & V & _).
    destruct A as [[A1 A2]|[A _]]; [injection A1 as <- <- <-|]; lia.
Qed.

Lemma env_assign fr s s' fr' en argument i z n l r : stores fr s n (group fr argument) i (VInt I32 z) l r ->
  r = Ok (ONext fr') s' -> env_at fr s en -> apart (fr_params fr) (fr_locals fr) -> int32 z ->
  exists_var en argument i = true -> env_at fr s' (assign en argument i z).
Proof.
  intros ST E [EA EL] AP Z X. pose proof ST as (fr1 & s1 & E1 & _ & _ & _ & _ & _ & V & _).
  rewrite E in E1. injection E1 as <- <-.
  assert (AP' : apart (fr_locals fr) (fr_params fr)) by (destruct (fr_locals fr), (fr_params fr); cbn in *; auto; lia).
  destruct argument; cbn [exists_var assign group] in *; apply Nat.ltb_lt in X.
  - split; cbn [e_args e_locals].
    + intros j y H. destruct (N.eq_dec i j) as [->|D].
      * rewrite replace_nth_same in H by exact X. injection H as <-. auto.
      * rewrite replace_nth_other in H by lia. destruct (EA j y H) as [Y W]. split; [exact Y|].
        eapply stores_other; eauto.
    + intros j o H. destruct (EL j o H) as (w & W & F). exists w. split; [|exact F].
      eapply stores_other; eauto. right. split; [exact AP|].
      destruct (nth_error (e_args en) (N.to_nat i)) as [u|] eqn:U; [|apply nth_error_None in U; lia].
      destruct (EA i u U). eauto.
  - split; cbn [e_args e_locals].
    + intros j y H. destruct (EA j y H) as [Y W]. split; [exact Y|].
      eapply stores_other; eauto. right. split; [exact AP'|].
      destruct (nth_error (e_locals en) (N.to_nat i)) as [u|] eqn:U; [|apply nth_error_None in U; lia].
      destruct (EL i u U) as (w & Hw & _). eauto.
    + intros j o H. destruct (N.eq_dec i j) as [->|D].
      * rewrite replace_nth_same in H by exact X. injection H as <-. exists (VInt I32 z). split; [exact V|].
        intros y H. injection H as <-. auto.
      * rewrite replace_nth_other in H by lia. destruct (EL j o H) as (w & W & F). exists w. split; [|exact F].
        eapply stores_other; eauto.
Qed.

(** ** Expressions *)

Lemma set_ip_twice fr a b : set_ip (set_ip fr a) b = set_ip fr b.
Proof. reflexivity. Qed.
Lemma set_ip_same fr : set_ip fr (fr_ip fr) = fr.
Proof. now destruct fr. Qed.

(** Code of [n] bytes does what [a] says, in [k] instructions or more if it is a number. *)
Definition delivers (p : profile) (fr : frame) (s : machine) (n : N) (l : list value) (a : answer) : Prop :=
  match a with
  | Gives z => int32 z /\ exists k, reach p (S k) fr s (set_ip fr (fr_ip fr + n)) (set_operands s (VInt I32 z :: l))
  | Trap => eventually p 0 (panics_at p) fr s
  | Unspecified => True
  end.

Lemma gives_delivers p fr s n l a : gives p fr s n l a -> delivers p fr s n l a.
Proof.
  destruct a as [z| |]; cbn; [|apply eventually_now|trivial].
  intros [Z H]. split; [exact Z|]. exists 0%nat. now apply continues_reach.
Qed.

Lemma delivers_after p k fr s fr1 s1 n m l a : reach p k fr s fr1 s1 -> (exists x, fr1 = set_ip fr x /\ x + n = fr_ip fr + m) ->
  (forall l', set_operands s1 l' = set_operands s l') ->
  delivers p fr1 s1 n l a -> delivers p fr s m l a.
Proof.
  intros R (x & -> & X) SO. destruct a as [z| |]; cbn; [|intro H; eapply (eventually_less _ (k + 0)), eventually_reach; eauto|trivial].
  intros [Z [j H]]. split; [exact Z|]. exists (k + j)%nat. rewrite X, SO in H.
  replace (S (k + j)) with (k + S j)%nat by lia. eapply reach_trans; [exact R|exact H].
Qed.

Lemma expr_ok p en e bs : expr_code e bs -> forall fr s, code_here fr bs -> env_at fr s en ->
  delivers p fr s (len bs) (x_operands s) (eval p en e).
Proof.
  induction 1 as [z bs K|argument i bs K|o a bs i U A IH|o a b bs cs is U A IHa B IHb]; intros fr s C EN; cbn [eval].
  - split.
    + inversion K; subst; try (unfold int32; lia);
        match goal with |- int32 (signed_number ?l) => pose proof (signed_number_range l) as R; cbn [List.length] in R; unfold int32 end.
      * specialize (R ltac:(lia)). change (2 ^ (8 * Z.of_nat 1 - 1))%Z with 128%Z in R. lia.
      * specialize (R ltac:(lia)). change (2 ^ (8 * Z.of_nat 4 - 1))%Z with 2147483648%Z in R. lia.
    + exists 0%nat. apply continues_reach. intro f. now apply C48_constants.
  - assert (H : forall z, int32 z -> variable s (group fr argument) i (VInt I32 z) ->
                delivers p fr s (len bs) (x_operands s) (Gives z)).
    { intros z Z V. split; [exact Z|]. exists 0%nat. apply continues_reach. intro f. eapply C48_load_variable; eauto. }
    destruct EN as [EA EL]. unfold look_up. destruct argument.
    + destruct (nth_error (e_args en) (N.to_nat i)) eqn:E; [|exact I]. destruct (EA _ _ E). now apply H.
    + destruct (nth_error (e_locals en) (N.to_nat i)) as [[z|]|] eqn:E; try exact I.
      destruct (EL _ _ E) as (v & V & F). destruct (F z eq_refl) as [Z ->]. now apply H.
  - pose proof (code_here_prefix _ _ _ C) as C1. apply code_here_drop in C.
    specialize (IH fr s C1 EN). destruct (eval p en a) as [x| |]; cbn [then_with]; [|exact IH|exact I].
    destruct IH as [X [k R]]. eapply delivers_after; [exact R| |reflexivity|].
    + eexists. split; [reflexivity|]. instantiate (1 := 1). rewrite len_app. change (len [i]) with 1. lia.
    + apply gives_delivers. now eapply unary_ok; eauto.
  - pose proof (code_here_prefix _ _ _ C) as C1. apply code_here_drop in C.
    pose proof (code_here_prefix _ _ _ C) as C2. apply code_here_drop in C.
    specialize (IHa fr s C1 EN). destruct (eval p en a) as [x| |]; cbn [then_with]; [|exact IHa|exact I].
    destruct IHa as [X [k R]]. specialize (IHb _ (set_operands s (VInt I32 x :: x_operands s)) C2 EN).
    destruct (eval p en b) as [y| |]; cbn [then_with]; [| |exact I].
    + destruct IHb as [Y [k' R']]. pose proof (reach_trans _ _ _ _ _ _ _ _ _ R R') as R2.
      eapply delivers_after; [exact R2| |reflexivity|].
      * eexists. split; [reflexivity|]. cbn [fr_ip set_ip]. instantiate (1 := len is). rewrite !len_app. lia.
      * apply gives_delivers. now eapply binary_ok; eauto.
    + cbn [delivers] in *. eapply (eventually_less _ (S k + 0)), eventually_reach; eauto.
Qed.

(** ** Conditions *)

Lemma set_operands_same s : set_operands s (x_operands s) = s.
Proof. now destruct s. Qed.

(** The address behind the code at [fr]. *)
Definition behind (fr : frame) (bs : list byte) : N := fr_ip fr + len bs.

Lemma branch_taken z zero : (negb (z =? 0)%Z = negb zero) <-> (zero_value (VInt I32 z) <-> zero = true).
Proof.
  destruct (Z.eqb_spec z 0) as [->|N], zero; cbn; split; intro H; try easy.
  - split; [auto|constructor].
  - exfalso. assert (false = true) by (apply H; constructor). discriminate.
  - exfalso. assert (zero_value (VInt I32 z)) as Z by (now apply H). inversion Z; subst. auto.
  - split; [|discriminate]. intro Z. inversion Z; subst. contradiction.
Qed.

Lemma cond_ok p en c want ts n ds fr s : branch_on c want ts n -> List.length ds = n -> code_here fr (ts ++ ds) ->
  env_at fr s en -> (0 <= Z.of_N (behind fr (ts ++ ds)) + signed_number ds < 2 ^ 64)%Z ->
  match eval_cond p en c with
  | Gives z => exists k, reach p (S (S k)) fr s
      (set_ip fr (if Bool.eqb (negb (z =? 0)%Z) want
                  then Z.to_N (Z.of_N (behind fr (ts ++ ds)) + signed_number ds) else behind fr (ts ++ ds))) s
  | Trap => eventually p 0 (panics_at p) fr s
  | Unspecified => True
  end.
Proof.
  intros B L C EN R. unfold behind in *.
  assert (LD : len ds = N.of_nat n) by (unfold len; lia).
  destruct B as [e bs i n zero XC ZC|r a b bs cs i n rel want XA XB BC HR]; cbn [eval_cond].
  - pose proof (code_here_prefix _ _ _ (code_here_prefix _ _ _ C)) as C1. rewrite <- app_assoc in C. apply code_here_drop in C.
    pose proof (expr_ok p en e bs XC fr s C1 EN) as D. destruct (eval p en e) as [z| |]; [|exact D|exact I].
    destruct D as [Z [k D]]. exists k. cbn [app] in C.
    replace (S (S k)) with (S k + 1)%nat by lia. eapply reach_trans; [exact D|].
    set (s1 := set_operands s (VInt I32 z :: x_operands s)). set (fr1 := set_ip fr (fr_ip fr + len bs)) in *.
    assert (E1 : fr_ip fr1 + (1 + N.of_nat n) = fr_ip fr + len ((bs ++ [i]) ++ ds)).
    { unfold fr1. cbn [fr_ip set_ip]. rewrite !len_app, LD. change (len [i]) with 1. lia. }
    pose proof (fun f => C47_branch_on_zero f p fr1 s1 i n zero ds (VInt I32 z) (x_operands s) ZC C L eq_refl I) as H.
    assert (RR : (0 <= Z.of_N (fr_ip fr1) + 1 + Z.of_nat n + signed_number ds < 2 ^ 64)%Z) by lia.
    destruct (Bool.eqb (negb (z =? 0)%Z) (negb zero)) eqn:T.
    + apply Bool.eqb_prop in T. apply branch_taken in T. apply reach_1. intro f.
      rewrite (branches_eq _ _ _ _ _ _ (proj1 (H f RR) T)). rewrite E1. unfold fr1, s1.
      change (set_operands (set_operands s (VInt I32 z :: x_operands s)) (x_operands s)) with (set_operands s (x_operands s)).
      rewrite set_operands_same. reflexivity.
    + apply Bool.eqb_false_iff in T. rewrite branch_taken in T. apply reach_1. intro f.
      rewrite (continues_eq _ _ _ _ _ (proj2 (H f RR) T)). rewrite E1. unfold fr1, s1.
      change (set_operands (set_operands s (VInt I32 z :: x_operands s)) (x_operands s)) with (set_operands s (x_operands s)).
      rewrite set_operands_same. reflexivity.
  - pose proof (code_here_prefix _ _ _ (code_here_prefix _ _ _ C)) as C1. rewrite <- app_assoc in C. apply code_here_drop in C.
    pose proof (code_here_prefix _ _ _ (code_here_prefix _ _ _ C)) as C2. rewrite <- app_assoc in C. apply code_here_drop in C.
    pose proof (expr_ok p en a bs XA fr s C1 EN) as D. destruct (eval p en a) as [x| |]; cbn [then_with]; [|exact D|exact I].
    destruct D as [X [k D]].
    pose proof (expr_ok p en b cs XB _ (set_operands s (VInt I32 x :: x_operands s)) C2 EN) as D'.
    destruct (eval p en b) as [y| |]; cbn [then_with]; [| |exact I].
    2:{ cbn [delivers] in *. eapply (eventually_less _ (S k + 0)), eventually_reach; eauto. }
    destruct D' as [Y [k' D']]. cbn [truth]. exists (k + S k')%nat. cbn [app] in C.
    replace (S (S (k + S k'))) with (S k + S k' + 1)%nat by lia.
    eapply reach_trans; [eapply reach_trans; [exact D|exact D']|]. cbn [fr_ip set_ip] in *.
    set (s1 := set_operands _ (VInt I32 y :: _)). set (fr1 := set_ip (set_ip fr (fr_ip fr + len bs)) (fr_ip fr + len bs + len cs)) in *.
    assert (E1 : fr_ip fr1 + (1 + N.of_nat n) = fr_ip fr + len ((bs ++ cs ++ [i]) ++ ds)).
    { unfold fr1. cbn [fr_ip set_ip]. rewrite !len_app, LD. change (len [i]) with 1. lia. }
    pose proof (fun f => C47_branch f p fr1 s1 i n rel ds (VInt I32 x) (VInt I32 y) (Some (x ?= y)%Z) (x_operands s) BC C L eq_refl
                  (ordered_int _ _ _)) as H.
    assert (RR : (0 <= Z.of_N (fr_ip fr1) + 1 + Z.of_nat n + signed_number ds < 2 ^ 64)%Z) by lia.
    assert (SS : set_operands s1 (x_operands s) = s) by (destruct s; reflexivity).
    assert (Q : (exists d, Some (x ?= y)%Z = Some d /\ rel d) <-> related r (x ?= y)%Z = want).
    { rewrite <- HR. split; [intros (d & E & G); congruence|eauto]. }
    replace (negb ((if related r (x ?= y)%Z then 1 else 0) =? 0)%Z) with (related r (x ?= y)%Z)
      by (destruct (related r (x ?= y)%Z); reflexivity).
    destruct (Bool.eqb (related r (x ?= y)%Z) want) eqn:T.
    + apply Bool.eqb_prop in T. rewrite <- Q in T. apply reach_1. intro f.
      rewrite (branches_eq _ _ _ _ _ _ (proj1 (H f RR) T)). rewrite E1. rewrite SS. reflexivity.
    + apply Bool.eqb_false_iff in T. rewrite <- Q in T. apply reach_1. intro f.
      rewrite (continues_eq _ _ _ _ _ (proj2 (H f RR) T)). rewrite E1. rewrite SS. reflexivity.
Qed.

Lemma jump_ok p j k es fr s : jump_code j k -> List.length es = k -> code_here fr (j :: es) ->
  (0 <= Z.of_N (behind fr (j :: es)) + signed_number es < 2 ^ 64)%Z ->
  forall f, step f p fr s = Ok (ONext (set_ip fr (Z.to_N (Z.of_N (behind fr (j :: es)) + signed_number es)))) s.
Proof.
  intros J L C R f. unfold behind in *.
  assert (E : fr_ip fr + len (j :: es) = fr_ip fr + (1 + N.of_nat k)) by (unfold len; cbn [List.length]; lia).
  rewrite E in *. rewrite (branches_eq _ _ _ _ _ _ (C49_jump f p fr s j k es J C L ltac:(lia))).
  now rewrite set_operands_same.
Qed.

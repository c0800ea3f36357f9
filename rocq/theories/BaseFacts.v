(** Lemmas about the vocabulary of [Base]. *)
From Coq Require Import NArith ZArith String List Bool Lia ZifyBool ZifyNat ZifyN.
From Coq.Strings Require Import Byte.
From Verif Require Import Base.
Import ListNotations.
Open Scope N_scope.

Ltac dlia := Zify.zify; Z.to_euclidean_division_equations; lia.

Lemma bn_lt b : bn b < 256.
Proof. unfold bn. pose proof (Byte.to_N_bounded b). lia. Qed.

Lemma bn_nb n : bn (nb n) = n mod 256.
Proof.
  unfold bn, nb. destruct (Byte.of_N (n mod 256)) eqn:E.
  - apply Byte.to_of_N in E. exact E.
  - exfalso. pose proof (Byte.to_of_N_option_map (n mod 256)) as H. rewrite E in H. simpl in H.
    assert (n mod 256 < 256) by (apply N.mod_lt; lia).
    destruct (N.leb_spec (n mod 256) 255); [discriminate|lia].
Qed.

Lemma bn_nb_small n : n < 256 -> bn (nb n) = n.
Proof. intro. rewrite bn_nb. apply N.mod_small; auto. Qed.

Lemma nb_bn b : nb (bn b) = b.
Proof.
  unfold nb, bn. rewrite N.mod_small by (pose proof (Byte.to_N_bounded b); lia).
  now rewrite Byte.of_to_N.
Qed.

Lemma bn_inj a b : bn a = bn b -> a = b.
Proof. intro H. rewrite <- (nb_bn a), <- (nb_bn b). now rewrite H. Qed.

Lemma byte_eqb_spec a b : Byte.eqb a b = true <-> a = b.
Proof.
  split; [apply Byte.byte_dec_bl|apply Byte.byte_dec_lb].
Qed.

Lemma len_nil {A} : len (@nil A) = 0. Proof. reflexivity. Qed.
Lemma len_cons {A} (x : A) l : len (x :: l) = 1 + len l.
Proof. unfold len. simpl List.length. lia. Qed.
Lemma len_app {A} (l l' : list A) : len (l ++ l') = len l + len l'.
Proof. unfold len. rewrite app_length. lia. Qed.
Lemma len_map {A B} (f : A -> B) l : len (map f l) = len l.
Proof. unfold len. now rewrite map_length. Qed.
Lemma len_rev {A} (l : list A) : len (rev l) = len l.
Proof. unfold len. now rewrite rev_length. Qed.
Lemma len_repeat {A} (x : A) n : len (repeat x n) = N.of_nat n.
Proof. unfold len. now rewrite repeat_length. Qed.
Lemma len_0 {A} (l : list A) : len l = 0 -> l = [].
Proof. destruct l; auto. rewrite len_cons. lia. Qed.
Lemma to_nat_len {A} (l : list A) : N.to_nat (len l) = List.length l.
Proof. unfold len. lia. Qed.

Global Hint Rewrite @len_nil @len_cons @len_app @len_map @len_rev @len_repeat : len.
Ltac slen := autorewrite with len in *.

Lemma le_enc_length n v : List.length (le_enc n v) = n.
Proof. revert v; induction n; simpl; auto. Qed.
Lemma len_le_enc n v : len (le_enc n v) = N.of_nat n.
Proof. unfold len. now rewrite le_enc_length. Qed.
Lemma len_be_enc n v : len (be_enc n v) = N.of_nat n.
Proof. unfold be_enc. rewrite len_rev. apply len_le_enc. Qed.
Global Hint Rewrite @len_le_enc @len_be_enc : len.

Lemma le_dec_enc_mod n v : le_dec (le_enc n v) = v mod (256 ^ N.of_nat n).
Proof.
  revert v; induction n; intro v.
  - simpl. now rewrite N.mod_1_r.
  - cbn [le_enc le_dec]. rewrite IHn, bn_nb.
    replace (N.of_nat (S n)) with (N.succ (N.of_nat n)) by lia.
    rewrite N.pow_succ_r'.
    rewrite N.mod_mul_r by (try lia; apply N.pow_nonzero; lia).
    lia.
Qed.

Lemma le_dec_enc n v : v < 256 ^ N.of_nat n -> le_dec (le_enc n v) = v.
Proof. intro. rewrite le_dec_enc_mod. now apply N.mod_small. Qed.

Lemma be_dec_enc n v : v < 256 ^ N.of_nat n -> be_dec (be_enc n v) = v.
Proof. intro. unfold be_dec, be_enc. rewrite rev_involutive. now apply le_dec_enc. Qed.

Lemma le_dec_bound bs : le_dec bs < 256 ^ len bs.
Proof.
  induction bs.
  - simpl. lia.
  - cbn [le_dec]. rewrite len_cons. rewrite N.pow_add_r. pose proof (bn_lt a).
    change (256 ^ 1) with 256. nia.
Qed.

Lemma le_enc_dec bs : le_enc (List.length bs) (le_dec bs) = bs.
Proof.
  induction bs as [|b bs IH]; auto.
  cbn [le_enc le_dec List.length]. f_equal.
  - apply bn_inj. rewrite bn_nb. pose proof (bn_lt b). dlia.
  - replace ((bn b + 256 * le_dec bs) / 256) with (le_dec bs).
    + exact IH.
    + pose proof (bn_lt b). rewrite N.add_comm, N.mul_comm, N.div_add_l by lia.
      rewrite N.div_small by lia. lia.
Qed.

Lemma le_dec_inj a b : List.length a = List.length b -> le_dec a = le_dec b -> a = b.
Proof. intros H1 H2. rewrite <- (le_enc_dec a), <- (le_enc_dec b). now rewrite H1, H2. Qed.

(** ** [sub_list] *)

Lemma skipn_app_len {A} (l l' : list A) : skipn (N.to_nat (len l)) (l ++ l') = l'.
Proof. rewrite to_nat_len. rewrite skipn_app, Nat.sub_diag, skipn_all. reflexivity. Qed.
Lemma firstn_app_len {A} (l l' : list A) : firstn (N.to_nat (len l)) (l ++ l') = l.
Proof.
  rewrite to_nat_len. rewrite firstn_app, Nat.sub_diag, firstn_all. apply app_nil_r.
Qed.

Lemma sub_list_app {A} (pre b rest : list A) :
  sub_list (len pre) (len b) (pre ++ b ++ rest) = b.
Proof. unfold sub_list. now rewrite skipn_app_len, firstn_app_len. Qed.

Lemma len_sub_list {A} off n (l : list A) :
  off + n <= len l -> len (sub_list off n l) = n.
Proof.
  unfold sub_list, len. intro. rewrite firstn_length, skipn_length. lia.
Qed.

Lemma len_firstn {A} n (l : list A) : N.of_nat n <= len l -> len (firstn n l) = N.of_nat n.
Proof. unfold len. intro. rewrite firstn_length. lia. Qed.
Lemma len_skipn {A} n (l : list A) : len (skipn n l) = len l - N.of_nat n.
Proof. unfold len. rewrite skipn_length. lia. Qed.

Lemma split_at {A} off n (l : list A) : off + n <= len l ->
  exists pre b post, l = pre ++ b ++ post /\ len pre = off /\ len b = n.
Proof.
  intro H.
  exists (firstn (N.to_nat off) l), (sub_list off n l), (skipn (N.to_nat n) (skipn (N.to_nat off) l)).
  split; [|split].
  - unfold sub_list. rewrite firstn_skipn. now rewrite firstn_skipn.
  - rewrite len_firstn; lia.
  - now apply len_sub_list.
Qed.

Lemma split_at1 {A} off (l : list A) : off <= len l ->
  exists pre post, l = pre ++ post /\ len pre = off.
Proof.
  intro H. exists (firstn (N.to_nat off) l), (skipn (N.to_nat off) l).
  rewrite firstn_skipn. split; auto. rewrite len_firstn; lia.
Qed.

Lemma app_len_inj {A} (a b c d : list A) : len a = len c -> a ++ b = c ++ d -> a = c /\ b = d.
Proof.
  intros H E. apply app_inv_head_iff with (l := []) in E. simpl in E.
  assert (List.length a = List.length c) by (unfold len in H; lia).
  revert c H H0 E. induction a; destruct c; intros; simpl in *; try lia; auto.
  injection E; intros; subst. destruct (IHa c); auto; try (slen; lia). subst; auto.
Qed.

Lemma u_add_small p bits a b : a + b < 2 ^ bits -> u_add p bits a b = Some (a + b).
Proof. intro. unfold u_add. destruct (N.ltb_spec (a + b) (2 ^ bits)); auto; lia. Qed.
Lemma u_mul_small p bits a b : a * b < 2 ^ bits -> u_mul p bits a b = Some (a * b).
Proof. intro. unfold u_mul. destruct (N.ltb_spec (a * b) (2 ^ bits)); auto; lia. Qed.
Lemma u_sub_small p bits a b : b <= a -> u_sub p bits a b = Some (a - b).
Proof. intro. unfold u_sub. destruct (N.leb_spec b a); auto; lia. Qed.

Lemma list_eqb_spec {A} (eqb : A -> A -> bool) :
  (forall x y, eqb x y = true <-> x = y) ->
  forall l1 l2, list_eqb eqb l1 l2 = true <-> l1 = l2.
Proof.
  intros H; induction l1; destruct l2; simpl; split; intro E; try discriminate; auto.
  - apply andb_true_iff in E as [E1 E2]. f_equal. now apply H. now apply IHl1.
  - injection E; intros; subst. apply andb_true_iff; split. now apply H. now apply IHl1.
Qed.

Lemma bytes_eqb_spec l1 l2 : bytes_eqb l1 l2 = true <-> l1 = l2.
Proof. apply list_eqb_spec. apply byte_eqb_spec. Qed.
Lemma bytes_eqb_refl l : bytes_eqb l l = true.
Proof. now apply bytes_eqb_spec. Qed.

(** ** Monad *)
Lemma bind_ok {S A B} (m : M S A) (k : A -> M S B) s a s' :
  m s = Ok a s' -> bind m k s = k a s'.
Proof. intro H. unfold bind. now rewrite H. Qed.

Lemma bind_inv_ok {S A B} (m : M S A) (k : A -> M S B) s b s'' :
  bind m k s = Ok b s'' -> exists a s', m s = Ok a s' /\ k a s' = Ok b s''.
Proof. unfold bind. destruct (m s); intro; try discriminate. eauto. Qed.

Lemma repeat_m_length {S A} n (m : M S A) s l s' :
  repeat_m n m s = Ok l s' -> List.length l = n.
Proof.
  revert s l s'; induction n; simpl; intros s l s' H.
  - injection H; intros; subst; auto.
  - apply bind_inv_ok in H as (x & s1 & H1 & H).
    apply bind_inv_ok in H as (xs & s2 & H2 & H).
    injection H; intros; subst. simpl. f_equal. eauto.
Qed.

(** Lemmas about the reader model and the combinators for [parses] and [total]. *)
From Coq Require Import NArith ZArith String List Bool Lia ZifyBool ZifyNat ZifyN.
From Coq.Strings Require Import Byte.
From Verif Require Import Base Utf BinaryReader ParseSpec BaseFacts.
Import ListNotations.
Open Scope N_scope.

Lemma pow64 : 2 ^ 64 = 18446744073709551616. Proof. reflexivity. Qed.
Lemma pow63 : 2 ^ 63 = 9223372036854775808. Proof. reflexivity. Qed.
Lemma pow32 : 2 ^ 32 = 4294967296. Proof. reflexivity. Qed.

Lemma peek_ok p n r : slice_ok (rdata r) -> rpos r + n <= len (rdata r) ->
  peek p n r = Ok (Some (sub_list (rpos r) n (rdata r))) r.
Proof.
  intros H1 H2. unfold peek, slice_ok in *. rewrite pow63 in H1.
  rewrite u_add_small by (rewrite pow64; lia).
  destruct (N.ltb_spec (len (rdata r)) (rpos r + n)); [lia|].
  destruct (N.ltb_spec (len (rdata r)) (rpos r)); [lia|reflexivity].
Qed.

Lemma peek_none p n r : len (rdata r) < rpos r + n -> rpos r + n < 2 ^ 64 ->
  peek p n r = Ok None r.
Proof.
  intros H1 H2. unfold peek.
  rewrite u_add_small by lia.
  destruct (N.ltb_spec (len (rdata r)) (rpos r + n)); [reflexivity|lia].
Qed.

Lemma advance_ok p n r : rpos r + n < 2 ^ 64 ->
  advance p n r = Ok (rpos r + n <=? len (rdata r)) (mkReader (rdata r) (rpos r + n)).
Proof. intro. unfold advance. rewrite u_add_small by lia. reflexivity. Qed.

Lemma read_ok p n r : slice_ok (rdata r) -> rpos r + n <= len (rdata r) ->
  read p n r = Ok (Some (sub_list (rpos r) n (rdata r))) (mkReader (rdata r) (rpos r + n)).
Proof.
  intros H1 H2. unfold read, bind. rewrite peek_ok by auto.
  unfold slice_ok in H1. rewrite pow63 in H1. rewrite advance_ok by (rewrite pow64; lia). reflexivity.
Qed.

Lemma read_none p n r : len (rdata r) < rpos r + n -> rpos r + n < 2 ^ 64 ->
  read p n r = Ok None r.
Proof. intros. unfold read, bind. now rewrite peek_none. Qed.

Lemma read_array_ok p sz cnt r : slice_ok (rdata r) -> rpos r + cnt * sz <= len (rdata r) ->
  read_array p sz cnt r =
  Ok (Some (sub_list (rpos r) (cnt * sz) (rdata r))) (mkReader (rdata r) (rpos r + cnt * sz)).
Proof.
  intros H1 H2. unfold slice_ok in H1. rewrite pow63 in H1. unfold read_array.
  rewrite u_mul_small by (rewrite pow64; lia).
  rewrite u_add_small by (rewrite pow64; lia).
  destruct (N.ltb_spec (len (rdata r)) (rpos r + cnt * sz)); [lia|].
  destruct (N.ltb_spec (len (rdata r)) (rpos r)); [lia|].
  unfold bind. rewrite advance_ok by (rewrite pow64; lia). reflexivity.
Qed.

Lemma read_array_none p sz cnt r :
  len (rdata r) < rpos r + cnt * sz -> rpos r + cnt * sz < 2 ^ 64 ->
  read_array p sz cnt r = Ok None r.
Proof.
  intros H1 H2. unfold read_array.
  rewrite u_mul_small by lia. rewrite u_add_small by lia.
  destruct (N.ltb_spec (len (rdata r)) (rpos r + cnt * sz)); [reflexivity|lia].
Qed.

(** ** [parses] *)

Lemma parses_ret {A} (a : A) : parses (ret a) [] a.
Proof.
  intros pre rest _. unfold ret. simpl. rewrite N.add_0_r. reflexivity.
Qed.

Lemma parses_bind {A B} (m : M reader A) (k : A -> M reader B) bs1 bs2 a b :
  parses m bs1 a -> parses (k a) bs2 b -> parses (bind m k) (bs1 ++ bs2) b.
Proof.
  intros H1 H2 pre rest Hs. rewrite <- app_assoc in *.
  unfold bind. rewrite (H1 pre (bs2 ++ rest)) by auto.
  replace (pre ++ bs1 ++ bs2 ++ rest) with ((pre ++ bs1) ++ bs2 ++ rest) in *
    by (now rewrite <- app_assoc).
  replace (len pre + len bs1) with (len (pre ++ bs1)) by apply len_app.
  rewrite H2 by auto. f_equal. f_equal. slen. lia.
Qed.

Lemma parses_bind' {A B} (m : M reader A) (k : A -> M reader B) bs bs1 bs2 a b :
  bs = bs1 ++ bs2 -> parses m bs1 a -> parses (k a) bs2 b -> parses (bind m k) bs b.
Proof. intros ->. apply parses_bind. Qed.

Lemma parses_bind_ret {A B} (m : M reader A) (f : A -> B) bs a :
  parses m bs a -> parses (x <- m ;; ret (f x)) bs (f a).
Proof. intro H. eapply parses_bind'; [symmetry; apply app_nil_r|exact H|apply parses_ret]. Qed.

Lemma parses_ext {A} (m m' : M reader A) bs a :
  (forall r, m r = m' r) -> parses m bs a -> parses m' bs a.
Proof. intros H P pre rest Hs. rewrite <- H. now apply P. Qed.

Lemma parses_read p bs n : len bs = n -> parses (read p n) bs (Some bs).
Proof.
  intros <- pre rest Hs. rewrite read_ok; simpl; auto.
  - now rewrite sub_list_app.
  - slen. lia.
Qed.

Lemma parses_rd_bytes p n e bs : len bs = n -> parses (rd p n e) bs (le_dec bs).
Proof.
  intro H. unfold rd. eapply parses_bind'; [symmetry; apply app_nil_r|now apply parses_read|].
  apply parses_ret.
Qed.

Lemma parses_rd p n e v : v < 256 ^ n -> parses (rd p n e) (le_enc (N.to_nat n) v) v.
Proof.
  intro H. rewrite <- (le_dec_enc (N.to_nat n) v) at 2 by (now rewrite N2Nat.id).
  apply parses_rd_bytes. slen. lia.
Qed.

Lemma parses_read_array p sz cnt bs : len bs = cnt * sz ->
  parses (read_array p sz cnt) bs (Some bs).
Proof.
  intros H pre rest Hs. rewrite read_array_ok; simpl; auto.
  - rewrite <- H. now rewrite sub_list_app.
  - slen. lia.
Qed.

Lemma parses_repeat {A} (m : M reader A) (items : list (list byte * A)) :
  Forall (fun it => parses m (fst it) (snd it)) items ->
  parses (repeat_m (List.length items) m) (concat (map fst items)) (map snd items).
Proof.
  induction 1 as [|it items H _ IH]; simpl.
  - apply parses_ret.
  - eapply parses_bind; [exact H|]. apply parses_bind_ret with (f := fun xs => snd it :: xs). exact IH.
Qed.

Lemma parses_repeat_map {A X} (m : M reader A) (enc : X -> list byte) (dec : X -> A) n l :
  n = List.length l -> (forall x, In x l -> parses m (enc x) (dec x)) ->
  parses (repeat_m n m) (concat (map enc l)) (map dec l).
Proof.
  intros -> H.
  pose proof (parses_repeat m (map (fun x => (enc x, dec x)) l)) as P.
  rewrite map_length, !map_map in P. simpl in P. apply P.
  apply Forall_forall. intros [b a] Hin. apply in_map_iff in Hin as (x & E & Hx).
  injection E; intros; subst. simpl. auto.
Qed.

(** Peeking one byte does not consume it. *)
Lemma peek1_at p e b pre rest :
  slice_ok (pre ++ b :: rest) ->
  pk p 1 e (mkReader (pre ++ b :: rest) (len pre)) =
  Ok (bn b) (mkReader (pre ++ b :: rest) (len pre)).
Proof.
  intro H. unfold pk, bind. rewrite peek_ok; simpl; auto.
  - change (b :: rest) with ([b] ++ rest).
    change 1 with (len [b]). rewrite sub_list_app. simpl. unfold ret. f_equal. lia.
  - slen. lia.
Qed.

(** Peek-then-continue: the continuation parses the whole string. *)
Lemma parses_peek1 {A} p e (k : N -> M reader A) b bs a :
  parses (k (bn b)) (b :: bs) a -> parses (bind (pk p 1 e) k) (b :: bs) a.
Proof.
  intros H pre rest Hs. unfold bind. simpl app. rewrite peek1_at by auto.
  exact (H pre rest Hs).
Qed.

(** ** [total] *)

Lemma total_ret {A} (a : A) : total (ret a).
Proof. intros r [H1 H2]. simpl. repeat split; lia. Qed.
Lemma total_fail {A} e : total (@fail reader A e).
Proof. intros r [H1 H2]. simpl. repeat split; lia. Qed.

Lemma total_bind {A B} (m : M reader A) (k : A -> M reader B) :
  total m -> (forall a, total (k a)) -> total (bind m k).
Proof.
  intros H1 H2 r Hr. unfold bind. specialize (H1 r Hr).
  destruct (m r) as [a r'|e r'| | |]; auto.
  destruct H1 as (E & L1 & L2).
  assert (in_bounds r') as Hr'. { destruct Hr. split; rewrite E; auto. }
  specialize (H2 a r' Hr'). destruct (k a r') as [b r''|e r''| | |]; auto.
  - destruct H2 as (E2 & L3 & L4). rewrite E in *. repeat split; auto; lia.
  - destruct H2 as (E2 & L3 & L4). rewrite E in *. repeat split; auto; lia.
Qed.

Lemma total_read p n : n < 2 ^ 62 -> total (read p n).
Proof.
  intros Hn r [H1 H2]. change (2 ^ 62) with 4611686018427387904 in Hn.
  destruct (N.le_gt_cases (rpos r + n) (len (rdata r))).
  - rewrite read_ok by auto. simpl. repeat split; lia.
  - unfold slice_ok in H1. rewrite pow63 in H1.
    rewrite read_none by (rewrite ?pow64; lia). repeat split; lia.
Qed.

Lemma total_peek p n : n < 2 ^ 62 -> total (peek p n).
Proof.
  intros Hn r [H1 H2]. change (2 ^ 62) with 4611686018427387904 in Hn.
  destruct (N.le_gt_cases (rpos r + n) (len (rdata r))).
  - rewrite peek_ok by auto. simpl. repeat split; lia.
  - unfold slice_ok in H1. rewrite pow63 in H1.
    rewrite peek_none by (rewrite ?pow64; lia). repeat split; lia.
Qed.

Lemma total_rd p n e : n < 2 ^ 62 -> total (rd p n e).
Proof.
  intro. apply total_bind; [now apply total_read|].
  intros [d|]; [apply total_ret|apply total_fail].
Qed.
Lemma total_pk p n e : n < 2 ^ 62 -> total (pk p n e).
Proof.
  intro. apply total_bind; [now apply total_peek|].
  intros [d|]; [apply total_ret|apply total_fail].
Qed.

Lemma total_read_array p sz cnt : cnt * sz < 2 ^ 62 -> total (read_array p sz cnt).
Proof.
  intros Hn r [H1 H2]. change (2 ^ 62) with 4611686018427387904 in Hn.
  destruct (N.le_gt_cases (rpos r + cnt * sz) (len (rdata r))).
  - rewrite read_array_ok by auto. simpl. repeat split; lia.
  - unfold slice_ok in H1. rewrite pow63 in H1.
    rewrite read_array_none by (rewrite ?pow64; lia). repeat split; lia.
Qed.

Lemma total_repeat {A} n (m : M reader A) : total m -> total (repeat_m n m).
Proof.
  intro H. induction n; simpl.
  - apply total_ret.
  - apply total_bind; auto. intro. apply total_bind; auto. intro. apply total_ret.
Qed.

(** Value bounds. *)
Lemma rd_ok_inv p n e r v r' : rd p n e r = Ok v r' ->
  slice_ok (rdata r) -> rpos r + n < 2 ^ 64 ->
  rpos r + n <= len (rdata r) /\ v = le_dec (sub_list (rpos r) n (rdata r)) /\
  r' = mkReader (rdata r) (rpos r + n).
Proof.
  intros H Hs Hb. unfold rd in H.
  destruct (N.le_gt_cases (rpos r + n) (len (rdata r))) as [L|L].
  - unfold bind in H. rewrite read_ok in H by auto. injection H; intros; subst. auto.
  - unfold bind in H. rewrite read_none in H by auto. discriminate.
Qed.

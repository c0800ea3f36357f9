(** More about array reads (C02). *)
From Coq Require Import NArith ZArith String List Bool Lia.
From Coq.Strings Require Import Byte.
From Verif Require Import Base BinaryReader ParseSpec BaseFacts ReaderFacts SpecReads.
Import ListNotations.
Open Scope N_scope.

(** In a release build the end of an array is computed modulo 2^64. *)
Lemma release_end pos cnt sz : 2 ^ 64 <= pos + cnt * sz ->
  exists m, u_mul Release 64 cnt sz = Some m /\
    u_add Release 64 pos m = Some ((pos + cnt * sz) mod 2 ^ 64).
Proof.
  unfold u_mul, u_add. rewrite pow64. intros H.
  destruct (cnt * sz <? _) eqn:E; eexists; (split; [reflexivity|]).
  - destruct (pos + cnt * sz <? _) eqn:F; [apply N.ltb_lt in F; lia | reflexivity].
  - rewrite <- (N.add_mod_idemp_r pos (cnt * sz)) by discriminate.
    destruct (pos + _ <? _) eqn:G; [|reflexivity]. apply N.ltb_lt in G.
    rewrite (N.mod_small (pos + _)) by exact G. reflexivity.
Qed.

Lemma sub_list_join {A} pos a b (l : list A) :
  sub_list pos a l ++ sub_list (pos + a) b l = sub_list pos (a + b) l.
Proof.
  unfold sub_list. rewrite !N2Nat.inj_add.
  generalize (N.to_nat pos) as q, (N.to_nat a) as x, (N.to_nat b) as y. intros q x y. revert l.
  induction q as [|q IH]; intros [|z l]; cbn [skipn Nat.add]; rewrite ?firstn_nil, ?skipn_nil;
    auto; [now rewrite firstn_nil| ].
  generalize (z :: l) as k. clear. induction x as [|x IH]; intros [|y' k]; cbn;
    rewrite ?firstn_nil; auto. now rewrite IH.
Qed.

(** C02: what becomes of a byte count that overflows [usize]: a debug build panics; a release
    build compares the end taken modulo 2^64.  Together with C02_read_array_exact_partial and
    C02_peek_array_exact_partial this covers all sizes, counts and positions. *)
Theorem C02_overflow_partial : forall sz cnt data pos, slice_ok data -> 2 ^ 64 <= pos + cnt * sz ->
  (exists w, read_array Debug sz cnt (mkReader data pos) = Panic w) /\
  (exists w, peek_array Debug sz cnt (mkReader data pos) = Panic w) /\
  (len data < (pos + cnt * sz) mod 2 ^ 64 ->
     read_array Release sz cnt (mkReader data pos) = Ok None (mkReader data pos)) /\
  (len data <= (pos + cnt * sz) mod 2 ^ 64 ->
     peek_array Release sz cnt (mkReader data pos) = Ok None (mkReader data pos)) /\
  ((pos + cnt * sz) mod 2 ^ 64 <= len data -> len data < pos ->
     exists w, read_array Release sz cnt (mkReader data pos) = Panic w) /\
  ((pos + cnt * sz) mod 2 ^ 64 < len data -> len data < pos ->
     exists w, peek_array Release sz cnt (mkReader data pos) = Panic w) /\
  ((pos + cnt * sz) mod 2 ^ 64 <= len data -> pos <= len data ->
     exists w, read_array Release sz cnt (mkReader data pos) = Ub w) /\
  ((pos + cnt * sz) mod 2 ^ 64 < len data -> pos <= len data ->
     exists w, peek_array Release sz cnt (mkReader data pos) = Ub w).
Proof.
  intros sz cnt data pos Hs Ho. unfold slice_ok in Hs. rewrite pow63 in Hs. rewrite pow64 in *.
  assert (HL : len data <? pos + cnt * sz = true) by (apply N.ltb_lt; lia).
  destruct (release_end pos cnt sz) as [m [HM HA]]; [rewrite pow64; exact Ho|].
  rewrite pow64 in HA. unfold read_array, peek_array. cbn [rdata rpos]. rewrite HM, HA, HL.
  unfold u_mul, u_add. rewrite pow64.
  repeat split.
  - destruct (cnt * sz <? _) eqn:E; [|eexists; reflexivity].
    destruct (pos + cnt * sz <? _) eqn:F; [apply N.ltb_lt in F; lia | eexists; reflexivity].
  - destruct (cnt * sz <? _) eqn:E; [|eexists; reflexivity].
    destruct (pos + cnt * sz <? _) eqn:F; [apply N.ltb_lt in F; lia | eexists; reflexivity].
  - intros H. apply N.ltb_lt in H. rewrite H. reflexivity.
  - intros H. apply N.leb_le in H. rewrite H. reflexivity.
  - intros H1 H2. apply N.ltb_ge in H1. apply N.ltb_lt in H2. rewrite H1, H2. eexists; reflexivity.
  - intros H1 H2. apply N.leb_gt in H1. apply N.ltb_lt in H2. rewrite H1, H2. eexists; reflexivity.
  - intros H1 H2. apply N.ltb_ge in H1. apply N.ltb_ge in H2. rewrite H1, H2. eexists; reflexivity.
  - intros H1 H2. apply N.leb_gt in H1. apply N.ltb_ge in H2. rewrite H1, H2. eexists; reflexivity.
Qed.
Print Assumptions C02_overflow_partial.

Example C02_overflow_ex :
  slice_ok [x01; x02; x03] /\ 2 ^ 64 <= 1 + 2 ^ 62 * 4 /\ (1 + 2 ^ 62 * 4) mod 2 ^ 64 = 1 /\
  read_array Debug 4 (2 ^ 62) (mkReader [x01; x02; x03] 1) = Panic "attempt to multiply with overflow" /\
  read_array Release 4 (2 ^ 62) (mkReader [x01; x02; x03] 1) = Ub "slice past the end of the buffer" /\
  read_array Release 4 (2 ^ 62 + 1) (mkReader [x01; x02; x03] 1) = Ok None (mkReader [x01; x02; x03] 1) /\
  read_array Release 4 (2 ^ 62) (mkReader [] 2) = Ok None (mkReader [] 2) /\
  read_array Release 4 (2 ^ 62) (mkReader [] 0) = Ub "slice past the end of the buffer".
Proof. repeat split; try reflexivity; discriminate. Qed.

(** C02: reading an array gives what reading its elements one after another gives, and ends at
    the same place. *)
Theorem C02_element_reads : forall p sz cnt data pos, slice_ok data -> pos + N.of_nat cnt * sz <= len data ->
  exists elems, one_by_one p sz cnt (mkReader data pos) elems (mkReader data (pos + N.of_nat cnt * sz)) /\
    read_array p sz (N.of_nat cnt) (mkReader data pos) =
      Ok (Some (concat elems)) (mkReader data (pos + N.of_nat cnt * sz)).
Proof.
  intros p sz cnt data pos Hs. pose proof Hs as Hs'. unfold slice_ok in Hs. rewrite pow63 in Hs.
  revert pos. induction cnt as [|cnt IH]; intros pos He.
  - exists []. split; [cbn; rewrite N.add_0_r; constructor|].
    rewrite read_array_ok by (simpl; auto; lia). cbn [rdata rpos]. reflexivity.
  - assert (E : N.of_nat (S cnt) * sz = sz + N.of_nat cnt * sz) by lia.
    rewrite E in *. destruct (IH (pos + sz) ltac:(lia)) as [elems [H1 H2]].
    exists (sub_list pos sz data :: elems). rewrite N.add_assoc. split.
    + econstructor; [|exact H1]. apply read_ok; cbn; auto; lia.
    + rewrite read_array_ok by (cbn [rdata rpos]; rewrite ?E; auto; lia).
      rewrite read_array_ok in H2 by (cbn [rdata rpos]; auto; lia). cbn [rdata rpos] in *.
      injection H2 as H2. rewrite E, <- N.add_assoc. cbn [concat]. rewrite <- H2.
      rewrite sub_list_join. reflexivity.
Qed.
Print Assumptions C02_element_reads.

Example C02_element_reads_ex :
  1 + N.of_nat 2 * 2 <= len [x00; x01; x02; x03; x04] /\
  one_by_one Debug 2 2 (mkReader [x00; x01; x02; x03; x04] 1) [[x01; x02]; [x03; x04]]
    (mkReader [x00; x01; x02; x03; x04] 5).
Proof. split; [discriminate|]. repeat (econstructor; [reflexivity|]). constructor. Qed.

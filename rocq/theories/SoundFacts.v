(** Loading code has no undefined behaviour: a predicate on programs that is closed under the ways in which
    the loader is put together, and the readers. *)
From Coq Require Import NArith Lia String List Bool.
From Coq.Strings Require Import Byte.
From Verif Require Import Base Utf BinaryReader Pe Attributes Tables Blob Metadata Runtime Loader ParseSpec BaseFacts ReaderFacts.
Import ListNotations.
Open Scope N_scope.

(** From a state with [P], no undefined behaviour, a state with [P] after it, and a result with [Q]. *)
Definition sound {S A} (P : S -> Prop) (Q : A -> Prop) (m : M S A) : Prop := forall s, P s ->
  match m s with
  | Ok a s' => P s' /\ Q a
  | Err _ s' => P s'
  | Ub _ => False
  | Panic _ | NoFuel => True
  end.
Definition any {A : Type} (a : A) : Prop := True.
Definition fits (r : reader) : Prop := slice_ok (rdata r).

Lemma sd_ret {S A} (P : S -> Prop) (Q : A -> Prop) a : Q a -> sound P Q (ret a).
Proof. intros H s Hs. now split. Qed.
Lemma sd_fail {S A} (P : S -> Prop) (Q : A -> Prop) e : sound P Q (fail e).
Proof. intros s Hs. exact Hs. Qed.
Lemma sd_panic {S A} (P : S -> Prop) (Q : A -> Prop) e : sound P Q (panic e).
Proof. intros s Hs. exact Logic.I. Qed.
Lemma sd_nofuel {S A} (P : S -> Prop) (Q : A -> Prop) : sound P Q (@nofuel S A).
Proof. intros s Hs. exact Logic.I. Qed.
Lemma sd_bind {S A B} (P : S -> Prop) (R : A -> Prop) (Q : B -> Prop) (m : M S A) (k : A -> M S B) :
  sound P R m -> (forall a, R a -> sound P Q (k a)) -> sound P Q (bind m k).
Proof.
  intros Hm Hk s Hs. unfold bind. specialize (Hm s Hs). destruct (m s) as [a s'|e s'|w|w|]; try exact Hm.
  destruct Hm as [Hs' Ha]. exact (Hk a Ha s' Hs').
Qed.
Lemma sd_weak {S A} (P : S -> Prop) (R Q : A -> Prop) (m : M S A) : sound P R m -> (forall a, R a -> Q a) -> sound P Q m.
Proof. intros Hm H s Hs. specialize (Hm s Hs). destruct (m s); try exact Hm. destruct Hm. auto. Qed.
Lemma sd_any {S A} (P : S -> Prop) (R : A -> Prop) (m : M S A) : sound P R m -> sound P any m.
Proof. intro H. exact (sd_weak _ _ _ _ H (fun _ _ => Logic.I)). Qed.
Lemma sd_then {S A B} (P : S -> Prop) (Q : B -> Prop) (m : M S A) (k : A -> M S B) :
  sound P any m -> (forall a, sound P Q (k a)) -> sound P Q (bind m k).
Proof. intros Hm Hk. exact (sd_bind P any Q m k Hm (fun a _ => Hk a)). Qed.
Lemma sd_ok_or {S A} (P : S -> Prop) (Q : A -> Prop) (o : option A) e : (forall a, o = Some a -> Q a) -> sound P Q (ok_or o e).
Proof. intro H. destruct o; [apply sd_ret; auto|apply sd_fail]. Qed.
Lemma sd_unwrap {S A} (P : S -> Prop) (Q : A -> Prop) (o : option A) : (forall a, o = Some a -> Q a) -> sound P Q (unwrap o).
Proof. intro H. destruct o; [apply sd_ret; auto|apply sd_panic]. Qed.
Lemma sd_ovf {S A} (P : S -> Prop) (Q : A -> Prop) (o : option A) : (forall a, o = Some a -> Q a) -> sound P Q (ovf o).
Proof. intro H. destruct o; [apply sd_ret; auto|apply sd_panic]. Qed.
Lemma sd_map_err {S A} (P : S -> Prop) (Q : A -> Prop) (m : M S A) e : sound P Q m -> sound P Q (map_err m e).
Proof. intros H s Hs. unfold map_err. specialize (H s Hs). now destruct (m s). Qed.
Lemma sd_unwrap_result {S A} (P : S -> Prop) (Q : A -> Prop) (m : M S A) : sound P Q m -> sound P Q (unwrap_result m).
Proof. intros H s Hs. unfold unwrap_result. specialize (H s Hs). now destruct (m s). Qed.
Lemma sd_try {S A} (P : S -> Prop) (m : M S A) : sound P any m -> sound P any (try_m m).
Proof. intros H s Hs. unfold try_m. specialize (H s Hs). destruct (m s); try exact H. split; [exact H|exact Logic.I]. Qed.
Lemma sd_repeat {S A} (P : S -> Prop) (m : M S A) : sound P any m -> forall n, sound P any (repeat_m n m).
Proof.
  intros H. induction n as [|n IH]; cbn [repeat_m]; [now apply sd_ret|].
  apply sd_then; [exact H|intro x]. apply sd_then; [exact IH|intro]. now apply sd_ret.
Qed.
Lemma sd_map_m {S A B} (P : S -> Prop) (f : A -> M S B) : (forall x, sound P any (f x)) -> forall l, sound P any (map_m f l).
Proof.
  intros H. induction l as [|x l IH]; cbn [map_m]; [now apply sd_ret|].
  apply sd_then; [apply H|intro y]. apply sd_then; [exact IH|intro]. now apply sd_ret.
Qed.
Lemma sd_iter_m {S A} (P : S -> Prop) (f : A -> M S unit) : (forall x, sound P any (f x)) -> forall l, sound P any (iter_m f l).
Proof. intros H. induction l as [|x l IH]; cbn [iter_m]; [now apply sd_ret|]. apply sd_then; [apply H|intro; exact IH]. Qed.
Lemma sd_range_m {S} (P : S -> Prop) (f : N -> M S unit) : (forall x, sound P any (f x)) -> forall n i, sound P any (range_m n i f).
Proof. intros H. induction n as [|n IH]; intro i; cbn [range_m]; [now apply sd_ret|]. apply sd_then; [apply H|intro; apply IH]. Qed.
Lemma sd_fold_m {S A B} (P : S -> Prop) (f : A -> B -> M S A) : (forall a x, sound P any (f a x)) -> forall l a, sound P any (fold_m f a l).
Proof. intros H. induction l as [|x l IH]; intro a; cbn [fold_m]; [now apply sd_ret|]. apply sd_then; [apply H|intro; apply IH]. Qed.
Lemma sd_lift {S A} (P : S -> Prop) (Q : A -> Prop) (m : M unit A) : sound any Q m -> sound P Q (lift m).
Proof.
  intros H s Hs. unfold lift. specialize (H tt Logic.I). destruct (m tt); try exact H; [|exact Hs].
  destruct H as [_ H]. now split.
Qed.
Lemma sd_on_reader {A} (Q : A -> Prop) r (m : M reader A) : fits r -> sound fits Q m -> sound any Q (on_reader r m).
Proof.
  intros Hr H s Hs. unfold on_reader. specialize (H r Hr). destruct (m r); try exact H; [|exact Logic.I].
  destruct H as [_ H]. now split.
Qed.
Lemma sd_with_reader {S A} (P : S -> Prop) (Q : A -> Prop) r (m : M reader A) : fits r -> sound fits Q m ->
  sound P (fun x => Q (fst x) /\ fits (snd x)) (with_reader r m).
Proof.
  intros Hr H s Hs. unfold with_reader. specialize (H r Hr). destruct (m r); try exact H; [|exact Hs].
  destruct H as [Hf Ha]. now repeat split.
Qed.

(** ** The byte reader *)

Lemma sd_get : sound fits fits (@get_state reader).
Proof. intros r H. now split. Qed.
Lemma sd_goto x : sound fits any (goto x).
Proof. intros r H. split; [exact H|exact Logic.I]. Qed.
Lemma sd_advance p x : sound fits any (advance p x).
Proof. intros r H. unfold advance. destruct (u_add p 64 (rpos r) x); [|exact Logic.I]. split; [exact H|exact Logic.I]. Qed.
Definition sized (n : N) (o : option (list byte)) : Prop := match o with Some d => len d = n | None => True end.
Lemma sd_peek p n : n < 2 ^ 63 -> sound fits (sized n) (peek p n).
Proof.
  intros Hn r Hr. unfold fits, slice_ok in Hr. unfold peek. destruct (u_add p 64 (rpos r) n) as [e|] eqn:E; [|exact Logic.I].
  destruct (N.ltb_spec (len (rdata r)) e) as [L|L]; [split; [exact Hr|exact Logic.I]|].
  destruct (N.ltb_spec (len (rdata r)) (rpos r)) as [L1|L1]; [exact Logic.I|].
  rewrite u_add_small in E by (rewrite pow63, ?pow64 in *; lia). injection E as <-.
  destruct (N.ltb_spec (len (rdata r)) (rpos r + n)) as [L2|L2]; [lia|].
  split; [exact Hr|]. cbn [sized]. apply len_sub_list. lia.
Qed.
Lemma sd_read p n : n < 2 ^ 63 -> sound fits (sized n) (read p n).
Proof.
  intro Hn. unfold read. apply (sd_bind _ (sized n)); [exact (sd_peek p n Hn)|]. intros [d|] Hd; [|now apply sd_ret].
  apply sd_then; [apply sd_advance|intro]. now apply sd_ret.
Qed.
Lemma sd_peek_array p sz cnt : cnt * sz < 2 ^ 63 -> sound fits any (peek_array p sz cnt).
Proof.
  intros Hn r Hr. unfold fits, slice_ok in Hr. unfold peek_array. rewrite u_mul_small by (rewrite pow63, ?pow64 in *; lia).
  destruct (u_add p 64 (rpos r) (cnt * sz)) as [e|] eqn:E; [|exact Logic.I].
  destruct (N.leb_spec (len (rdata r)) e) as [L|L]; [split; [exact Hr|exact Logic.I]|].
  destruct (N.ltb_spec (len (rdata r)) (rpos r)) as [L1|L1]; [exact Logic.I|].
  rewrite u_add_small in E by (rewrite pow63, ?pow64 in *; lia). injection E as <-.
  destruct (N.ltb_spec (len (rdata r)) (rpos r + cnt * sz)) as [L2|L2]; [lia|].
  split; [exact Hr|exact Logic.I].
Qed.
Lemma sd_read_array p sz cnt : cnt * sz < 2 ^ 63 -> sound fits any (read_array p sz cnt).
Proof.
  intros Hn r Hr. unfold fits, slice_ok in Hr. unfold read_array. rewrite u_mul_small by (rewrite pow63, ?pow64 in *; lia).
  destruct (u_add p 64 (rpos r) (cnt * sz)) as [e|] eqn:E; [|exact Logic.I].
  destruct (N.ltb_spec (len (rdata r)) e) as [L|L]; [split; [exact Hr|exact Logic.I]|].
  destruct (N.ltb_spec (len (rdata r)) (rpos r)) as [L1|L1]; [exact Logic.I|].
  rewrite u_add_small in E by (rewrite pow63, ?pow64 in *; lia). injection E as <-.
  destruct (N.ltb_spec (len (rdata r)) (rpos r + cnt * sz)) as [L2|L2]; [lia|].
  apply (sd_then fits any (advance p (cnt * sz))); [apply sd_advance|intro; now apply sd_ret|exact Hr].
Qed.
Lemma sd_read_str p n : n < 2 ^ 63 -> sound fits any (read_str p n).
Proof.
  intro Hn. unfold read_str. apply sd_then; [apply sd_read_array; now rewrite N.mul_1_r|]. intros [d|]; now apply sd_ret.
Qed.
Lemma nul_position_le l : forall k, nul_position l = Some k -> k < len l.
Proof.
  induction l as [|b l IH]; intros k E; cbn [nul_position] in E; [discriminate E|]. rewrite len_cons.
  destruct (Byte.eqb b x00); [injection E as <-; lia|]. destruct (nul_position l) as [j|]; [|discriminate E].
  injection E as <-. specialize (IH j eq_refl). lia.
Qed.
Lemma sd_read_c_str p : sound fits any (read_c_str p).
Proof.
  intros r Hr. unfold read_c_str. destruct (len (rdata r) <? rpos r); [exact Logic.I|].
  destruct (nul_position (skipn (N.to_nat (rpos r)) (rdata r))) as [k|] eqn:E; [|split; [exact Hr|exact Logic.I]].
  apply sd_read_str; [|exact Hr]. apply nul_position_le in E. rewrite len_skipn in E. unfold fits, slice_ok in Hr. lia.
Qed.
Lemma dec_below d n b : len d <= n -> 256 ^ n <= b -> le_dec d < b.
Proof.
  intros L H. eapply N.lt_le_trans; [apply le_dec_bound|]. eapply N.le_trans; [|exact H]. apply N.pow_le_mono_r; [discriminate|exact L].
Qed.
Lemma sd_rd_below p n e b : n < 2 ^ 63 -> 256 ^ n <= b -> sound fits (fun x => x < b) (rd p n e).
Proof.
  intros Hn Hb. unfold rd. apply (sd_bind _ (sized n)); [now apply sd_read|]. intros [d|] Hd; [|apply sd_fail].
  apply sd_ret. apply (dec_below _ n); [|exact Hb]. cbn in Hd. lia.
Qed.
Lemma sd_rd p n e : n < 2 ^ 63 -> sound fits any (rd p n e).
Proof.
  intros Hn. unfold rd. apply sd_then; [exact (sd_any _ _ _ (sd_read p n Hn))|]. intros [d|]; [now apply sd_ret|apply sd_fail].
Qed.
Lemma sd_rd_be p n e : n < 2 ^ 63 -> sound fits any (rd_be p n e).
Proof.
  intros Hn. unfold rd_be. apply sd_then; [exact (sd_any _ _ _ (sd_read p n Hn))|]. intros [d|]; [now apply sd_ret|apply sd_fail].
Qed.
Lemma sd_pk p n e : n < 2 ^ 63 -> sound fits any (pk p n e).
Proof.
  intros Hn. unfold pk. apply sd_then; [exact (sd_any _ _ _ (sd_peek p n Hn))|]. intros [d|]; [now apply sd_ret|apply sd_fail].
Qed.

(** The steps of a proof where nothing is to be known about intermediate results. *)
Ltac sd_step := first
  [ lazymatch goal with |- sound _ _ (bind _ _) => apply sd_then; [|intro] end
  | lazymatch goal with |- sound _ any (ret _) => now apply sd_ret end
  | apply sd_fail | apply sd_panic | apply sd_nofuel
  | lazymatch goal with |- sound _ any (ok_or _ _) => apply sd_ok_or; intros; exact Logic.I end
  | lazymatch goal with |- sound _ any (unwrap _) => apply sd_unwrap; intros; exact Logic.I end
  | lazymatch goal with |- sound _ any (ovf _) => apply sd_ovf; intros; exact Logic.I end
  | lazymatch goal with |- sound fits any (rd _ _ _) => apply sd_rd; reflexivity end
  | lazymatch goal with |- sound fits any (rd_be _ _ _) => apply sd_rd_be; reflexivity end
  | lazymatch goal with |- sound fits any (pk _ _ _) => apply sd_pk; reflexivity end
  | lazymatch goal with |- sound fits any (read _ _) => eapply sd_any, sd_read; reflexivity end
  | lazymatch goal with |- sound fits any (read_c_str _) => apply sd_read_c_str end
  | lazymatch goal with |- sound fits any (advance _ _) => apply sd_advance end
  | lazymatch goal with |- sound fits any (goto _) => apply sd_goto end
  | lazymatch goal with |- sound fits any (@get_state _) => exact (sd_any _ _ _ sd_get) end
  | lazymatch goal with |- sound _ any (map_err _ _) => apply sd_map_err end
  | lazymatch goal with |- sound _ any (try_m _) => apply sd_try end
  | lazymatch goal with |- sound _ any (repeat_m _ _) => apply sd_repeat end
  | lazymatch goal with |- sound _ _ (match ?x with _ => _ end) => destruct x end ].
Ltac sd := repeat sd_step.

(** ** PE *)

Lemma len_sub_le {A} a n (l : list A) : len (sub_list a n l) <= n.
Proof. unfold sub_list, len. pose proof (firstn_le_length (N.to_nat n) (skipn (N.to_nat a) l)). lia. Qed.
Lemma fld_below d a n b : 256 ^ n <= b -> fld d a n < b.
Proof. intro H. apply (dec_below _ n); [apply len_sub_le|exact H]. Qed.

Lemma sd_parse_pe p : sound fits any (parse_pe_m p).
Proof.
  unfold parse_pe_m. apply sd_then; [now apply sd_peek_array|intro mz]. sd_step; [now sd|]. sd_step; [now sd|].
  sd_step; [exact (sd_any _ _ _ (sd_peek p 4 eq_refl))|]. destruct a1 as [o|]; [|sd]. sd_step; [now sd|]. sd_step; [now apply sd_read_array|]. sd_step; [now sd|]. sd_step; [now sd|]. sd_step; [now sd|].
  cbv zeta. sd_step; [exact (sd_any _ _ _ (sd_peek p 2 eq_refl))|]. sd_step; [now sd|].
  apply (sd_bind _ (fun o => o_number_of_data_directories o < 2 ^ 32)).
  { destruct (_ =? _).
    - sd_step; [sd|]. sd_step; [sd|]. apply sd_ret. unfold dec_pe32. cbn [o_number_of_data_directories]. apply fld_below. discriminate.
    - destruct (_ =? _); [|sd]. sd_step; [sd|]. sd_step; [sd|]. apply sd_ret. unfold dec_pe64. cbn [o_number_of_data_directories]. apply fld_below. discriminate. }
  intros opt Ho. sd_step; [apply sd_read_array; unfold RVA_AND_SIZE_SIZE; rewrite pow32, pow63 in *; lia|]. sd_step; [sd|].
  sd_step; [|sd]. apply sd_read_array. unfold dec_pe_header. cbn [h_number_of_sections]. pose proof (fld_below a5 2 2 65536 ltac:(discriminate)).
  unfold PE_SECTION_SIZE. rewrite pow63. lia.
Qed.

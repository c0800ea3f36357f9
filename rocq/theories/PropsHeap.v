(** C39-C43: the heap. *)
From Coq Require Import NArith ZArith String List Bool Lia.
From Coq.Strings Require Import Byte.
From Verif Require Import Base BaseFacts Metadata Tables Runtime Loader Value Opcodes Gc Interp SpecExec SpecRuntime SpecTypes SpecHistory SpecHeap
  SpecStack SpecBytes SpecUtf SpecBlob ParseSpec Blob BlobProofs PropsBlob RuntimeInv HistoryProofs InterpInv InterpFacts FrameFacts VmFacts StackFacts PropsDecode TypeFacts HeapFacts FieldFacts
  DemoImages DemoFacts DemoStates DemoRuns.
Import ListNotations.
Open Scope N_scope.

(** ** Runtimes in use *)

Lemma started_grows s s' : started s -> grows s s' -> started s'.
Proof.
  intros [N H] [_ _ Q _ [l T] _]. split; [now rewrite Q|]. intros n t (q & E & I). rewrite Q in E.
  destruct (H n t) as (ti & Et & Nt); [exists q; auto|]. exists ti. split; [|exact Nt]. rewrite T. rewrite nth_error_app1; [exact Et|].
  exact (nth_lt _ _ _ Et).
Qed.

Lemma new_runtime_started p fs fuel paths rt con s : new_runtime fuel p fs paths rt con = Ok tt s -> started s.
Proof.
  intro H. unfold new_runtime in H.
  pose proof (empty_consistent p paths) as W0.
  assert (L : forall d s0, pres p evolves s0 (load_data fuel p fs d) (fun _ _ => True)).
  { intros d s0. eapply pres_weaken; [apply load_data_pres|auto]. }
  apply bind_inv_ok in H as (a1 & s1 & H1 & H).
  destruct (pres_run_ok _ _ _ _ _ _ _ (L _ _) W0 H1) as (W1 & E1 & _).
  apply bind_inv_ok in H as (a2 & s2 & H2 & H).
  destruct (pres_run_ok _ _ _ _ _ _ _ (L _ _) W1 H2) as (W2 & E2 & _).
  do 11 (let t := fresh "t" in let s' := fresh "s'" in let Ht := fresh "Ht" in let V := fresh "V" in
    apply bind_inv_ok in H as (t & s' & Ht & H);
    destruct (named_is _ _ _ _ _ W2 Ht) as (-> & V); clear Ht).
  cbn in H. injection H as <-. split; [discriminate|]. intros n t' (q & Q & I). cbn [c_primitives set_primitives] in Q. injection Q as <-.
  cbn [pt_sbyte pt_byte pt_short pt_ushort pt_int pt_uint pt_long pt_ulong pt_float pt_double pt_object] in I.
  change (is_named (c_types s2) t' n). cbn [In] in I.
  repeat (destruct I as [I|I]; [pose proof (f_equal fst I) as I1; pose proof (f_equal snd I) as I2; cbn [fst snd] in I1, I2; rewrite <- I1, <- I2; assumption|]).
  destruct I.
Qed.

(** Every runtime with a past is in use; so is the runtime at any point of an execution. *)
Lemma history_ready p fs paths s : history p fs paths s -> ready p s.
Proof.
  intro H. destruct (history_ok _ _ _ _ H) as (W & _). split; [exact W|].
  destruct H as (fuel & rt & con & s0 & H & L). pose proof (new_runtime_started _ _ _ _ _ _ _ H) as S.
  destruct (new_runtime_ok _ _ _ _ _ _ _ H) as (W0 & _). destruct (later_ok _ _ _ _ L W0) as [_ G].
  eapply started_grows; eauto.
Qed.
Lemma step_ready f p fr s o s' : ready p (x_vm s) -> step f p fr s = Ok o s' -> ready p (x_vm s').
Proof.
  intros [W S] E. pose proof (step_quiet f p fr s) as Q. rewrite E in Q. destruct Q as [_ Q]. destruct (Q W) as [W' A].
  split; [exact W'|]. eapply started_grows; [exact S|]. apply evolves_grows, appends_evolves, A.
Qed.

(** ** C39: allocations are fresh and disjoint *)

(** An allocation that succeeds puts a new block behind everything that is on the heap and changes
    nothing else.  In a release build the sizes must fit in 64 bits; otherwise see
    [C39_negative_refuted]. *)
Theorem C39_fresh p s r o s' : consistent p (x_vm s) -> granted p s r o s' ->
  consistent p (x_vm s') /\
  exists bs, block (c_types (x_vm s')) r bs /\ (no_wrap p (len (memory s) + len bs) -> allocated s o bs s').
Proof. intros W G. destruct (granted_ok _ _ _ _ _ W G) as (W' & _ & H). auto. Qed.

(** After any number of allocations the heap consists of what was there and the blocks, one behind
    the other. *)
Theorem C39_disjoint p s l s' : consistent p (x_vm s) -> grants p s l s' ->
  memory s' = memory s ++ concat (map snd l) /\
  (forall before o bs after, l = before ++ (o, bs) :: after -> o_off o = len (memory s ++ concat (map snd before))) /\
  (forall l1 o bs l2 o' bs' l3, l = l1 ++ (o, bs) :: l2 ++ (o', bs') :: l3 -> len (memory s) <= o_off o /\ o_off o + len bs <= o_off o').
Proof.
  intros W G. destruct (grants_ok _ _ _ _ W G) as (_ & M & O & _). split; [exact M|]. split; [exact O|].
  intros l1 o bs l2 o' bs' l3 E. rewrite (O _ _ _ _ E). rewrite app_comm_cons, app_assoc in E. rewrite (O _ _ _ _ E).
  rewrite map_app, concat_app. cbn [map concat snd]. rewrite !len_app. lia.
Qed.

(** ** C40: references stay valid *)

(** While everything fits in the capacity of the heap, every reference points to its block ... *)
Theorem C40_partial p s l s' : consistent p (x_vm s) -> grants p s l s' -> len (memory s') <= h_cap (x_heap s) ->
  (forall o bs, In (o, bs) l -> stored s' o 0 bs) /\
  (forall o d bs, stored s o d bs -> stored s' o d bs).
Proof.
  intros W G L. destruct (grants_ok _ _ _ _ W G) as (_ & M & O & _ & F & _). destruct (F L) as (FG & _ & FI). split.
  - intros o bs I. split; [rewrite FG; eauto|]. apply in_split in I as (l1 & l2 & ->). specialize (O _ _ _ _ eq_refl).
    exists (memory s ++ concat (map snd l1)), (concat (map snd l2)). rewrite M, map_app, concat_app, N.add_0_r, O. cbn [map snd concat].
    rewrite <- !app_assoc. auto.
  - intros o d bs (Go & b & a & Mb & Lb). split; [congruence|]. exists b, (a ++ concat (map snd l)). rewrite M, Mb, <- !app_assoc. auto.
Qed.

(** ... and as soon as it does not, all references made before dangle: no access through them is
    defined any more. *)
Theorem C40_refuted p s l s' o d n bs : consistent p (x_vm s) -> grants p s l s' ->
  len (memory s) <= h_cap (x_heap s) -> h_cap (x_heap s) < len (memory s') -> o_gen o = h_gen (x_heap s) ->
  (exists w, load o d n s' = Ub w) /\ (exists w, store o d bs s' = Ub w) /\
  (exists w, string_data o s' = Ub w) /\ (forall f, exists w, get_field_value o f s' = Ub w) /\
  (forall f v, exists w, set_field o f v s' = Ub w) /\ (exists w, as_array o s' = Ub w).
Proof.
  intros W G L0 L Go. destruct (grants_ok _ _ _ _ W G) as (_ & _ & _ & _ & _ & C). specialize (C L0 L).
  assert (X : negb (Nat.eqb (o_gen o) (h_gen (x_heap s'))) = true).
  { apply negb_true_iff, Nat.eqb_neq. lia. }
  assert (LD : forall d n, load o d n s' = Ub "access to memory that has been freed").
  { intros d' n'. unfold load. now rewrite X. }
  split; [eauto|]. split; [unfold store; rewrite X; eauto|].
  split; [unfold string_data, bind; rewrite LD; eauto|].
  split; [intro f; unfold get_field_value, raw_object, flags_of, bind; rewrite LD; eauto|].
  split; [intros f v; unfold set_field, raw_object, flags_of, bind; rewrite LD; eauto|].
  unfold as_array, flags_of, bind. rewrite LD. eauto.
Qed.

(** ** C41: fields *)

(** A new object has zeros in all the fields that lie inside it. *)
Theorem C41_new p s t ti o s' n f v k tn : consistent p (x_vm s) -> granted p s (an_object t) o s' ->
  nth_error (c_types (x_vm s)) t = Some ti -> size (c_types (x_vm s')) t n -> no_wrap p (len (memory s) + 5 + n) ->
  type_name_of v = Some tn -> is_named (c_types (x_vm s')) (f_type f) tn -> represents v (zeros k) ->
  f_offset f + k <= n -> field_value s' o f v.
Proof.
  intros W G Et Sz NW T N R L. destruct (C39_fresh _ _ _ _ _ W G) as (W' & bs & B & A).
  inversion B as [t' ti' n' id Et' Ei Sz'| |]; subst. rewrite (size_unique _ _ _ _ Sz' Sz) in *. clear Sz' n'.
  assert (Li : len id = 4) by (unfold len; rewrite (proj1 Ei); reflexivity).
  destruct A as (M & -> & _).
  { rewrite !len_app, Li. unfold zeros. rewrite len_zeros. change (len [x00]) with 1.
    replace (len (memory s) + (1 + (4 + n))) with (len (memory s) + 5 + n) by lia. exact NW. }
  assert (St : stored s' (mkObj (h_gen (x_heap s')) (len (memory s))) 0 ([x00] ++ id ++ zeros n)).
  { split; [reflexivity|]. exists (memory s), []. rewrite app_nil_r, N.add_0_r. auto. }
  split; [exact (stored_first _ _ _ _ _ St)|]. split; [eauto|]. exists (zeros k). split; [exact R|].
  unfold zeros in St. replace n with (f_offset f + (k + (n - f_offset f - k))) in St by lia.
  rewrite zeros_app, zeros_app in St.
  replace (5 + f_offset f) with (0 + len (([x00] ++ id) ++ repeat x00 (N.to_nat (f_offset f))))
    by (rewrite !len_app, Li, len_zeros; change (len [x00]) with 1; lia).
  apply stored_part with (c := repeat x00 (N.to_nat (n - f_offset f - k))). rewrite <- !app_assoc. exact St.
Qed.

(** Loading a field gives its value. *)
Theorem C41_load fuel p fr s bs f o v rest : ready p (x_vm s) ->
  code_here fr (x7b :: bs) -> List.length bs = 4%nat ->
  denotes_field (x_vm s) (fr_assembly fr) (Z.to_N (number bs)) f -> x_operands s = VObject o :: rest ->
  field_value s o f v -> continues fr s 5 (v :: rest) (step fuel p fr s).
Proof. intros [_ S] C L D O F. now apply (step_ldfld fuel p fr s bs f o v rest C L D O). Qed.

(** Storing a value of the field's type gives the field that value, and nothing else changes. *)
Theorem C41_store fuel p fr s bs f o v rest old vb :
  code_here fr (x7d :: bs) -> List.length bs = 4%nat ->
  denotes_field (x_vm s) (fr_assembly fr) (Z.to_N (number bs)) f -> x_operands s = v :: VObject o :: rest ->
  field_value s o f old -> type_name_of v = type_name_of old -> represents v vb ->
  exists fr' s', step fuel p fr s = Ok (ONext fr') s' /\ frame_at fr fr' (fr_ip fr + 5) /\ x_operands s' = rest /\
    field_value s' o f v /\ only_writes s s' o (5 + f_offset f) (len vb).
Proof.
  intros C L D O F T R. destruct (set_field_ok (set_operands s rest) o f old v vb F T R) as (s' & E & F' & W & O').
  rewrite (step_stfld _ _ _ _ _ _ _ _ _ C L D O). unfold bind. rewrite E.
  eexists _, _. split; [reflexivity|]. split; [unfold frame_at; cbn; auto 10|]. split; [exact O'|]. split; [exact F'|exact W].
Qed.

(** Fields in other places keep their values. *)
Theorem C41_other s s' o d n o' f' v' vb' : only_writes s s' o d n -> field_value s o' f' v' -> represents v' vb' ->
  o_off o' + 5 + f_offset f' + len vb' <= o_off o + d \/ o_off o + d + n <= o_off o' + 5 + f_offset f' ->
  o_off o' + 5 <= o_off o + d \/ o_off o + d + n <= o_off o' ->
  field_value s' o' f' v'.
Proof.
  intros W (H & (tn & T & N) & bs & R & B) R' D1 D2. split; [|split].
  - eapply writes_keep; eauto. change (len [x00]) with 1. lia.
  - exists tn. split; [exact T|]. destruct W as (-> & _). exact N.
  - exists bs. split; [exact R|]. eapply writes_keep; eauto.
    destruct (represents_bytes _ _ R) as (_ & L & _). destruct (represents_bytes _ _ R') as (_ & L' & _). lia.
Qed.

(** But the width of a store is that of the value, and values of the narrow types are 32-bit numbers
    on the stack: a store to a 16-bit field overwrites the field behind it with the upper half. *)
Theorem C41_narrow_refuted fuel p fr s bs f g o x rest a b xb :
  code_here fr (x7d :: bs) -> List.length bs = 4%nat ->
  denotes_field (x_vm s) (fr_assembly fr) (Z.to_N (number bs)) f ->
  x_operands s = VInt I32 x :: VObject o :: rest -> represents (VInt I32 x) xb ->
  field_value s o f (VInt I16 a) -> field_value s o g (VInt I16 b) -> f_offset g = f_offset f + 2 ->
  exists fr' s', step fuel p fr s = Ok (ONext fr') s' /\
    field_value s' o f (VInt I16 (signed_number (firstn 2 xb))) /\
    field_value s' o g (VInt I16 (signed_number (skipn 2 xb))).
Proof.
  intros C L D O Rx (H & (tn & T & N) & ab & Ra & Sa) (_ & (tn' & T' & N') & bb & Rb & Sb) Off.
  destruct (represents_bytes _ _ Rx) as (HB & Lx & _). destruct (represents_bytes _ _ Ra) as (_ & La & _).
  destruct (represents_bytes _ _ Rb) as (_ & Lb & _). cbn [kind_of held_size ibits] in *.
  change (32 / 8) with 4 in Lx. change (16 / 8) with 2 in La, Lb.
  assert (Sab : stored (set_operands s rest) o (5 + f_offset f) (ab ++ bb)).
  { destruct Sa as (G & x1 & y1 & M1 & L1). destruct Sb as (_ & x2 & y2 & M2 & L2). split; [exact G|]. exists x1, y2.
    split; [|exact L1]. change (memory s = x1 ++ (ab ++ bb) ++ y2). rewrite M1 in M2. rewrite app_assoc in M2.
    apply split_same in M2 as [X M2]; [|rewrite app_length; unfold len in *; lia].
    rewrite M1, M2, <- app_assoc. reflexivity. }
  destruct (store_stored _ _ _ _ xb Sab) as (s' & E & St & W & O'); [rewrite len_app, La, Lb; exact Lx|].
  rewrite (step_stfld _ _ _ _ _ _ _ _ _ C L D O).
  assert (E' : set_field o f (VInt I32 x) (set_operands s rest) = Ok tt s').
  { unfold set_field, bind. rewrite (raw_object_ok (set_operands s rest) o H), HB. exact E. }
  unfold bind. rewrite E'. eexists _, s'. split; [reflexivity|].
  assert (F : stored s' o 0 [x00]).
  { eapply writes_keep; [exact W|exact H|]. left. change (len [x00]) with 1. lia. }
  assert (L4 : List.length xb = 4%nat) by (unfold len in Lx; lia).
  destruct xb as [|b0 [|b1 [|b2 [|b3 [|]]]]]; try discriminate L4. cbn [firstn skipn].
  destruct W as (V & _). split.
  - split; [exact F|]. split; [exists tn; rewrite V; split; [exact T|exact N]|]. exists [b0; b1]. split; [now constructor|].
    change [b0; b1; b2; b3] with ([b0; b1] ++ [b2; b3]) in St. exact (stored_first _ _ _ _ _ St).
  - split; [exact F|]. split; [exists tn'; rewrite V; split; [exact T'|exact N']|]. exists [b2; b3]. split; [now constructor|].
    rewrite Off, N.add_assoc. change 2 with (len [b0; b1]). apply stored_last. exact St.
Qed.

(** ** C42: arrays *)

Lemma builtin_named p s n t : ready p s -> builtin s n t -> is_named (c_types s) t n.
Proof. intros [_ [_ S]] B. now apply S. Qed.
Lemma number_width ts t v n : type_name_of v = Some n -> is_named ts t n -> width ts t (held_size (kind_of v)).
Proof.
  intros T N. unfold width, widths. destruct v as [[]| | |]; try discriminate T; injection T as <-; cbn [kind_of held_size ibits];
    eexists; (split; [|exact N]); cbn [In]; auto 20.
Qed.

(** A new array of numbers has the requested length and all elements zero. *)
Theorem C42_new p s t length o s' n v k : ready p (x_vm s) -> granted p s (an_array t length) o s' ->
  builtin (x_vm s) n t -> type_name_of v = Some n -> represents v (zeros k) -> no_wrap p (len (memory s) + 17 + k * length) ->
  array_value s' o t (repeat v (N.to_nat length)).
Proof.
  intros [W S] G B T R NW. destruct (granted_ok _ _ _ _ _ W G) as (W' & Ap & bs & Bl & A).
  assert (Ln : length < 2 ^ 64) by (now inversion G).
  assert (S' : started (x_vm s')) by (eapply started_grows; [exact S|]; apply evolves_grows, appends_evolves, Ap).
  assert (B' : builtin (x_vm s') n t).
  { destruct B as (q & Q & I). exists q. split; [|exact I]. destruct Ap. congruence. }
  inversion Bl as [|t' ti u ui m length' id eid l Eu Ei Lu Et Ee Sz El|]; subst.
  destruct (represents_bytes _ _ R) as (_ & Lk & _). unfold zeros in Lk. rewrite len_zeros in Lk.
  assert (m = k).
  { eapply size_unique; [exact Sz|]. apply size_primitive. rewrite Lk. eapply number_width; eauto. now apply S'. }
  subst m.
  assert (Li : len id = 4) by (unfold len; rewrite (proj1 Ei); reflexivity).
  assert (Le : len eid = 4) by (unfold len; rewrite (proj1 Ee); reflexivity).
  assert (Ll : len l = 8) by (unfold len; rewrite (proj1 El); reflexivity).
  destruct A as (M & -> & _).
  { rewrite !len_app, Li, Le, Ll. unfold zeros. rewrite len_zeros. change (len [x02]) with 1.
    replace (len (memory s) + (1 + (4 + (4 + (8 + k * length))))) with (len (memory s) + 17 + k * length) by lia. exact NW. }
  exists id, ti, eid, l, (repeat (zeros k) (N.to_nat length)). split; [exact (proj1 Ei)|]. split; [exact Et|]. split; [exact Ee|]. split.
  { rewrite len_repeat, N2Nat.id. exact El. }
  split.
  { clear - R. induction (N.to_nat length); cbn; constructor; auto. }
  assert (Z : concat (repeat (zeros k) (N.to_nat length)) = zeros (k * length)).
  { clear. unfold zeros. rewrite N2Nat.inj_mul. induction (N.to_nat length) as [|j IH]; [now rewrite Nat.mul_0_r|].
    cbn [repeat concat]. rewrite IH, <- repeat_app. f_equal. lia. }
  rewrite Z. split; [reflexivity|]. exists (memory s), []. rewrite app_nil_r, N.add_0_r. auto.
Qed.

Definition int_type : name := bytes_of_string "System.Int32".

Lemma ints_typed xs : Forall (fun x => type_name_of x = Some int_type) (map (VInt I32) xs).
Proof. induction xs; cbn; constructor; auto. Qed.

Lemma pop_array_ok s o t xs rest : ready xs (x_vm s) -> forall vs, array_value s o t vs ->
  x_operands s = VObject o :: rest -> pop_array s = Ok o (set_operands s rest).
Proof.
  intros _ vs (id & ti & eid & l & bss & _ & _ & _ & _ & _ & St) O. unfold pop_array, bind at 1. rewrite (pop_run _ _ _ O).
  unfold as_array, flags_of, bind.
  rewrite (load_stored (set_operands s rest) o 0 1 [x02]); [reflexivity| |reflexivity].
  exact (stored_first s o 0 [x02] (id ++ eid ++ l ++ concat bss) St).
Qed.

Lemma pop_i32_run s x l : x_operands s = VInt I32 x :: l -> pop_i32 s = Ok x (set_operands s l).
Proof. intro O. unfold pop_i32, bind. now rewrite (pop_run _ _ _ O). Qed.

Lemma nonneg_index i : (0 <= i < 2 ^ 31)%Z -> to_unsigned 64 i = Z.to_N i.
Proof. intro H. unfold to_unsigned. rewrite Z.mod_small; [reflexivity|]. change (2 ^ Z.of_N 64)%Z with 18446744073709551616%Z. lia. Qed.
Lemma negative_index i : (- 2 ^ 31 <= i < 0)%Z -> 2 ^ 63 <= to_unsigned 64 i.
Proof.
  intro H. unfold to_unsigned. change (2 ^ Z.of_N 64)%Z with 18446744073709551616%Z.
  replace (i mod 18446744073709551616)%Z with (i + 18446744073709551616)%Z.
  - change (2 ^ 63) with 9223372036854775808. lia.
  - rewrite <- (Z.mod_small (i + 18446744073709551616) 18446744073709551616) by lia.
    rewrite <- (Z_mod_plus_full i 1). f_equal.
Qed.
Lemma array_fits s o t xs : array_value s o t (map (VInt I32) xs) -> 4 * len xs <= len (memory s).
Proof.
  intros (id & ti & eid & l & bss & _ & _ & _ & _ & R & (_ & b & a & M & _)). rewrite M, !len_app.
  assert (len (concat bss) = len bss * 4).
  { apply len_concat. clear - R. remember (map (VInt I32) xs) as vs eqn:E. revert xs E. induction R as [|v b vs bss H R IH]; intros xs E; [constructor|].
    destruct xs as [|x xs]; [discriminate|]. injection E as -> ->. constructor; [|eauto]. destruct (represents_bytes _ _ H) as (_ & -> & _). reflexivity. }
  pose proof (forall2_len _ _ _ R) as X. rewrite len_map in X. lia.
Qed.

(** Element access by the interpreter: arrays of System.Int32. *)
Section IntArrays.
  Variables (fuel : nat) (p : profile) (fr : frame) (s : machine) (o : obj) (t : tref) (xs : list Z) (i : Z) (rest : list value).
  Hypothesis in_use : ready p (x_vm s).
  Hypothesis int_array : array_value s o t (map (VInt I32) xs).
  Hypothesis int_elements : builtin (x_vm s) int_type t.
  Hypothesis index_ok : (- 2 ^ 31 <= i < 2 ^ 31)%Z.
  (** No vector is larger than [isize::MAX]. *)
  Hypothesis memory_ok : len (memory s) < 2 ^ 63.

  Lemma slice_run l : i32_slice o (set_operands s l) = Ok (len xs) (set_operands s l).
  Proof.
    destruct in_use as [W S]. unfold i32_slice, bind.
    destruct (array_parts (set_operands s l) o t _ (VInt I32 0) int_type S int_array eq_refl int_elements (ints_typed xs))
      as (hd & bss & _ & _ & _ & _ & _ & _ & _ & Sl & _).
    change (HInt I32) with (kind_of (VInt I32 0)). rewrite Sl, len_map. reflexivity.
  Qed.
  Lemma outside : (i < 0 \/ Z.of_N (len xs) <= i)%Z -> (to_unsigned 64 i <? len xs) = false.
  Proof.
    intro H. apply N.ltb_ge. destruct H as [H|H].
    - pose proof (negative_index i ltac:(lia)). pose proof (array_fits _ _ _ _ int_array). lia.
    - rewrite nonneg_index by lia. lia.
  Qed.

  Lemma ldelem_inside x : code_here fr [x94] -> x_operands s = VInt I32 i :: VObject o :: rest ->
    (0 <= i)%Z -> nth_error xs (Z.to_nat i) = Some x -> continues fr s 1 (VInt I32 x :: rest) (step fuel p fr s).
  Proof.
    intros C O Pos E. step_at C. unfold ldelem_i4. unfold bind at 1. rewrite (pop_i32_run _ _ _ O).
    unfold bind at 1. rewrite (pop_array_ok (set_operands s (VObject o :: rest)) o t p rest in_use _ int_array eq_refl).
    change (set_operands (set_operands s (VObject o :: rest)) rest) with (set_operands s rest).
    unfold bind at 1. rewrite slice_run. unfold bind at 1. rewrite nonneg_index by lia.
    destruct in_use as [W S].
    destruct (element_get (set_operands s rest) o t _ (VInt I32 x) int_type (Z.to_N i) S int_array eq_refl int_elements (ints_typed xs)) as (bs & G & R).
    { rewrite nth_error_map. replace (N.to_nat (Z.to_N i)) with (Z.to_nat i) by lia. now rewrite E. }
    rewrite len_map in G. change (HInt I32) with (kind_of (VInt I32 x)). rewrite G.
    destruct (represents_bytes _ _ R) as (_ & _ & V). cbn [kind_of held_value int_of_bytes isigned ibits] in V. injection V as V. rewrite V.
    eexists _, _. split; [reflexivity|]. split; [unfold frame_at; cbn; auto 10|]. unfold operands_become. cbn. auto 10.
  Qed.
  Lemma ldelem_outside : code_here fr [x94] -> x_operands s = VInt I32 i :: VObject o :: rest ->
    (i < 0 \/ Z.of_N (len xs) <= i)%Z -> panics (step fuel p fr s).
  Proof.
    intros C O Out. step_at C. unfold ldelem_i4. unfold bind at 1. rewrite (pop_i32_run _ _ _ O).
    unfold bind at 1. rewrite (pop_array_ok (set_operands s (VObject o :: rest)) o t p rest in_use _ int_array eq_refl).
    change (set_operands (set_operands s (VObject o :: rest)) rest) with (set_operands s rest).
    unfold bind at 1. rewrite slice_run. unfold bind at 1, slice_get. rewrite outside by exact Out. eexists. reflexivity.
  Qed.
  Lemma stelem_inside v vb : code_here fr [x9e] -> x_operands s = VInt I32 v :: VInt I32 i :: VObject o :: rest ->
    (0 <= i < Z.of_N (len xs))%Z -> represents (VInt I32 v) vb ->
    exists fr' s', step fuel p fr s = Ok (ONext fr') s' /\ frame_at fr fr' (fr_ip fr + 1) /\ x_operands s' = rest /\
      array_value s' o t (map (VInt I32) (update xs (Z.to_nat i) v)) /\ only_writes s s' o (17 + Z.to_N i * 4) 4.
  Proof.
    intros C O In R. step_at C. unfold stelem_i4. unfold bind at 1. rewrite (pop_i32_run _ _ _ O).
    unfold bind at 1. rewrite (pop_i32_run (set_operands s (VInt I32 i :: VObject o :: rest)) i (VObject o :: rest) eq_refl).
    unfold bind at 1. rewrite (pop_array_ok (set_operands (set_operands s (VInt I32 i :: VObject o :: rest)) (VObject o :: rest)) o t p rest in_use _ int_array eq_refl).
    change (set_operands (set_operands (set_operands s (VInt I32 i :: VObject o :: rest)) (VObject o :: rest)) rest) with (set_operands s rest).
    unfold bind at 1. rewrite slice_run. unfold bind at 1. rewrite nonneg_index by lia. unfold slice_set.
    replace (Z.to_N i <? len xs) with true by (symmetry; apply N.ltb_lt; lia).
    destruct in_use as [W S].
    destruct (element_set (set_operands s rest) o t _ (VInt I32 v) int_type (Z.to_N i) vb S int_array eq_refl int_elements (ints_typed xs))
      as (s' & E & A & Wr & O'); [rewrite len_map; lia|exact R|].
    destruct (represents_bytes _ _ R) as (HB & _ & _).
    assert (HB' : le_enc 4 (to_unsigned 32 v) = vb) by (injection HB as HB; exact HB). rewrite HB'. clear HB HB'.
    change (HInt I32) with (kind_of (VInt I32 v)). rewrite E.
    eexists _, s'. split; [reflexivity|]. split; [unfold frame_at; cbn; auto 10|]. split; [exact O'|]. split; [|exact Wr].
    replace (map (VInt I32) (update xs (Z.to_nat i) v)) with (update (map (VInt I32) xs) (N.to_nat (Z.to_N i)) (VInt I32 v)); [exact A|].
    unfold update. replace (N.to_nat (Z.to_N i)) with (Z.to_nat i) by lia. rewrite map_app. cbn [map]. now rewrite firstn_map, skipn_map.
  Qed.
  Lemma stelem_outside v : code_here fr [x9e] -> x_operands s = VInt I32 v :: VInt I32 i :: VObject o :: rest ->
    (i < 0 \/ Z.of_N (len xs) <= i)%Z -> panics (step fuel p fr s).
  Proof.
    intros C O Out. step_at C. unfold stelem_i4. unfold bind at 1. rewrite (pop_i32_run _ _ _ O).
    unfold bind at 1. rewrite (pop_i32_run (set_operands s (VInt I32 i :: VObject o :: rest)) i (VObject o :: rest) eq_refl).
    unfold bind at 1. rewrite (pop_array_ok (set_operands (set_operands s (VInt I32 i :: VObject o :: rest)) (VObject o :: rest)) o t p rest in_use _ int_array eq_refl).
    change (set_operands (set_operands (set_operands s (VInt I32 i :: VObject o :: rest)) (VObject o :: rest)) rest) with (set_operands s rest).
    unfold bind at 1. rewrite slice_run. unfold bind at 1, slice_set. rewrite outside by exact Out. eexists. reflexivity.
  Qed.
End IntArrays.

(** ldelem.i4 within the array loads the element, elsewhere it panics.  No vector is larger than [isize::MAX]. *)
Theorem C42_load : forall fuel p fr s o t xs i rest x, SpecHeap.ready p (x_vm s) ->
  array_value s o t (map (VInt I32) xs) -> builtin (x_vm s) int_type t -> (- 2 ^ 31 <= i < 2 ^ 31)%Z -> len (memory s) < 2 ^ 63 ->
  code_here fr [x94] -> x_operands s = VInt I32 i :: VObject o :: rest ->
  (0 <= i)%Z -> nth_error xs (Z.to_nat i) = Some x -> continues fr s 1 (VInt I32 x :: rest) (step fuel p fr s).
Proof. intros. eapply ldelem_inside; eassumption. Qed.
Theorem C42_load_outside : forall fuel p fr s o t xs i rest, SpecHeap.ready p (x_vm s) ->
  array_value s o t (map (VInt I32) xs) -> builtin (x_vm s) int_type t -> (- 2 ^ 31 <= i < 2 ^ 31)%Z -> len (memory s) < 2 ^ 63 ->
  code_here fr [x94] -> x_operands s = VInt I32 i :: VObject o :: rest ->
  (i < 0 \/ Z.of_N (len xs) <= i)%Z -> panics (step fuel p fr s).
Proof. intros. eapply ldelem_outside; eassumption. Qed.
(** stelem.i4 within the array stores the element and writes nothing else, elsewhere it panics. *)
Theorem C42_store : forall fuel p fr s o t xs i rest v vb, SpecHeap.ready p (x_vm s) ->
  array_value s o t (map (VInt I32) xs) -> builtin (x_vm s) int_type t -> (- 2 ^ 31 <= i < 2 ^ 31)%Z -> len (memory s) < 2 ^ 63 ->
  code_here fr [x9e] -> x_operands s = VInt I32 v :: VInt I32 i :: VObject o :: rest ->
  (0 <= i < Z.of_N (len xs))%Z -> represents (VInt I32 v) vb ->
  exists fr' s', step fuel p fr s = Ok (ONext fr') s' /\ frame_at fr fr' (fr_ip fr + 1) /\ x_operands s' = rest /\
    array_value s' o t (map (VInt I32) (update xs (Z.to_nat i) v)) /\ only_writes s s' o (17 + Z.to_N i * 4) 4.
Proof. intros. eapply stelem_inside; eassumption. Qed.
Theorem C42_store_outside : forall fuel p fr s o t xs i rest v, SpecHeap.ready p (x_vm s) ->
  array_value s o t (map (VInt I32) xs) -> builtin (x_vm s) int_type t -> (- 2 ^ 31 <= i < 2 ^ 31)%Z -> len (memory s) < 2 ^ 63 ->
  code_here fr [x9e] -> x_operands s = VInt I32 v :: VInt I32 i :: VObject o :: rest ->
  (i < 0 \/ Z.of_N (len xs) <= i)%Z -> panics (step fuel p fr s).
Proof. intros. eapply stelem_outside; eassumption. Qed.

(** The elements after a store. *)
Theorem C42_exact (xs : list Z) i v j : (i < List.length xs)%nat ->
  nth_error (update xs i v) j = if Nat.eqb i j then Some v else nth_error xs j.
Proof.
  intro L. unfold update. destruct (Nat.eqb_spec i j) as [<-|NE].
  - rewrite nth_error_app2; rewrite firstn_length_le by lia; [|lia]. now rewrite Nat.sub_diag.
  - destruct (Nat.lt_ge_cases j i) as [H|H].
    + rewrite nth_error_app1 by (rewrite firstn_length_le; lia). revert i j L NE H. induction xs as [|x xs IH]; intros [|i] [|j] L NE H; cbn in *; try lia; auto.
      apply IH; lia.
    + rewrite nth_error_app2; rewrite firstn_length_le by lia; [|lia]. destruct (j - i)%nat as [|k] eqn:K; [lia|]. cbn [nth_error].
      replace j with (S i + k)%nat by lia. generalize (S i). clear. intro n. revert xs. induction n as [|n IH]; intro xs; [reflexivity|].
      destruct xs; [now destruct k|]. cbn. apply IH.
Qed.

(** The host's interface: [Array::set], for all types of numbers. *)
Theorem C42_set p s o t vs i v n vb : ready p (x_vm s) -> array_value s o t vs -> builtin (x_vm s) n t ->
  Forall (fun x => type_name_of x = Some n) vs -> type_name_of v = Some n -> represents v vb ->
  (i < len vs -> exists s', array_set o i v s = Ok tt s' /\ array_value s' o t (update vs (N.to_nat i) v) /\
     only_writes s s' o (17 + i * len vb) (len vb)) /\
  (len vs <= i -> array_set o i v s = Err "IndexOutOfRange" s).
Proof.
  intros [W S] A B F T R. destruct (array_parts _ _ _ _ _ _ S A T B F) as (hd & bss & _ & _ & _ & _ & L9 & LD & _ & Sl & _).
  destruct (represents_bytes _ _ R) as (HB & Lb & _). unfold array_set. split; intro I; unfold bind at 1; rewrite L9, LD.
  - replace (len vs <=? i) with false by (symmetry; apply N.leb_gt; exact I).
    destruct (started_q _ S) as (q & Q & _). unfold bind at 1.
    rewrite (on_vm_stays the_primitives s q) by (unfold the_primitives; now rewrite Q).
    rewrite HB. unfold bind. rewrite Sl.
    destruct (element_set _ _ _ _ _ _ i vb S A T B F I R) as (s' & E & A' & Wr & _).
    exists s'. rewrite Lb. split; [exact E|]. split; [exact A'|exact Wr].
  - replace (len vs <=? i) with true by (symmetry; apply N.leb_le; exact I). reflexivity.
Qed.
(** ... and the elements of the slice. *)
Theorem C42_get p s o t vs i v n : ready p (x_vm s) -> array_value s o t vs -> builtin (x_vm s) n t ->
  Forall (fun x => type_name_of x = Some n) vs -> type_name_of v = Some n ->
  array_slice o (kind_of v) s = Ok (Some (len vs)) s /\
  (nth_error vs (N.to_nat i) = Some v -> exists bs, slice_get o (kind_of v) (len vs) i s = Ok bs s /\ represents v bs) /\
  (len vs <= i -> exists w, slice_get o (kind_of v) (len vs) i s = Panic w).
Proof.
  intros [W S] A B F T. destruct (array_parts _ _ _ _ _ _ S A T B F) as (hd & bss & _ & _ & _ & _ & _ & _ & _ & Sl & _).
  split; [exact Sl|]. split; [intro E; eapply element_get; eauto|]. intro I. unfold slice_get.
  replace (i <? len vs) with false by (symmetry; apply N.ltb_ge; exact I). eexists. reflexivity.
Qed.

(** The instruction that creates an array pushes a new array with that many zeros ... *)
Theorem C42_newarr fuel p fr s bs t n rest out s' tn v k : ready p (x_vm s) ->
  code_here fr (x8d :: bs) -> List.length bs = 4%nat ->
  denotes_type (x_vm s) (fr_assembly fr) (Z.to_N (number bs)) t -> x_operands s = VInt I32 n :: rest -> (0 <= n < 2 ^ 31)%Z ->
  builtin (x_vm s) tn t -> type_name_of v = Some tn -> represents v (zeros k) -> len (memory s) < 2 ^ 63 ->
  step fuel p fr s = Ok out s' ->
  exists fr' o, out = ONext fr' /\ frame_at fr fr' (fr_ip fr + 5) /\ x_operands s' = VObject o :: rest /\
    o_off o = len (memory s) /\ array_value s' o t (repeat v (Z.to_nat n)).
Proof.
  intros R C L D O Hn B T Rv Lm E. pose proof C as C1. apply (code_here_prefix fr [x8d] bs) in C1. revert E. step_at C1. unfold newarr.
  rewrite (type_token p fr s x8d bs t (fun t0 fr0 => n <- pop_i32 ;; o <- alloc_array fuel p t0 (to_unsigned 64 n) ;; push (VObject o) ;;; next fr0) C L D).
  unfold bind at 1. rewrite (pop_i32_run _ _ _ O). rewrite nonneg_index by exact Hn. intro E.
  apply bind_inv_ok in E as (o & s1 & A & E).
  assert (G : granted p (set_operands s rest) (an_array t (Z.to_N n)) o s1).
  { eapply array_granted; [|exact A]. change (2 ^ 64) with 18446744073709551616. lia. }
  destruct (represents_bytes _ _ Rv) as (_ & Lk & _). unfold zeros in Lk. rewrite len_zeros in Lk.
  assert (K : k <= 8) by (rewrite Lk; destruct v as [[]| | |]; cbn; lia).
  assert (NW : no_wrap p (len (memory s) + 17 + k * Z.to_N n)).
  { intros _. change (2 ^ 63) with 9223372036854775808 in Lm. change (2 ^ 64) with 18446744073709551616. nia. }
  pose proof (C42_new p (set_operands s rest) t (Z.to_N n) o s1 tn v k R G B T Rv NW) as V.
  assert (X : o_off o = len (memory s) /\ x_operands s1 = rest).
  { assert (W0 : consistent p (x_vm (set_operands s rest))) by (exact (proj1 R)).
    destruct (C39_fresh _ _ _ _ _ W0 G) as (_ & bb & Bl & Al). destruct Al as (_ & -> & _ & _ & -> & _); [|auto].
    destruct (granted_ok _ _ _ _ _ W0 G) as (_ & Ap & _).
    inversion Bl as [|t' ti u ui m length' id eid l Eu Ei Lu Et Ee Sz El|]; subst.
    assert (Sz' : size (c_types (x_vm s1)) t (held_size (kind_of v))).
    { apply size_primitive. eapply number_width; eauto.
      pose proof (started_grows _ _ (proj2 R) (evolves_grows _ _ (appends_evolves _ _ Ap))) as S1. apply (proj2 S1).
      destruct B as (q & Q & I). exists q. split; [destruct Ap; cbn in *; congruence|exact I]. }
    rewrite (size_unique _ _ _ _ Sz Sz') in *. rewrite !len_app. unfold zeros. rewrite len_zeros.
    assert (Li : len id = 4) by (unfold len; rewrite (proj1 Ei); reflexivity).
    assert (Le : len eid = 4) by (unfold len; rewrite (proj1 Ee); reflexivity).
    assert (Ll : len l = 8) by (unfold len; rewrite (proj1 El); reflexivity). rewrite Li, Ll, Le. change (len [x02]) with 1.
    change (memory (set_operands s rest)) with (memory s).
    eapply no_wrap_le; [exact NW|lia]. }
  destruct X as [O1 O2]. unfold push, bind, next, ret in E. injection E as <- <-.
  eexists _, o. split; [reflexivity|]. split; [unfold frame_at; cbn; repeat split; lia|]. cbn [x_operands set_operands].
  split; [now rewrite O2|]. split; [exact O1|]. rewrite Z_N_nat in V. exact V.
Qed.

Lemma vec_reserve_fits n s s' : vec_reserve n s = Ok tt s' -> h_cap (x_heap s) < 2 ^ 63 ->
  h_cap (x_heap s') < 2 ^ 63 /\ (0 < n -> len (memory s) + n < 2 ^ 63).
Proof.
  unfold vec_reserve, memory. intros E C. destruct (N.ltb_spec (h_cap (x_heap s) - len (h_mem (x_heap s))) n).
  - destruct (N.ltb_spec (2 ^ 63 - 1) (N.max 8 (N.max (2 * h_cap (x_heap s)) (len (h_mem (x_heap s)) + n)))) as [|X]; [discriminate|].
    remember (N.max 8 (N.max (2 * h_cap (x_heap s)) (len (h_mem (x_heap s)) + n))) as c eqn:Hc.
    injection E as <-. cbn [x_heap set_heap h_cap]. change (2 ^ 63) with 9223372036854775808 in *. lia.
  - injection E as <-. lia.
Qed.
Lemma make_room_fits p size s o s' : make_room p size s = Ok o s' -> no_wrap p (len (memory s) + size) -> 0 < size ->
  h_cap (x_heap s) < 2 ^ 63 -> len (memory s) + size < 2 ^ 63.
Proof.
  intros E NW PS Cap. unfold make_room, ensure_size in E.
  apply bind_inv_ok in E as ([] & s1 & E1 & E).
  apply bind_inv_ok in E1 as (h & s0 & E0 & E1). injection E0 as <- <-. change (h_mem (x_heap s)) with (memory s) in E1.
  apply bind_inv_ok in E1 as (a & s0 & E0 & E1). apply ovf_run in E0 as [-> U]. apply no_wrap_add in U; [|exact NW]. subst a.
  assert (H1 : h_cap (x_heap s1) < 2 ^ 63 /\ memory s1 = memory s).
  { destruct (_ <? _); [|injection E1 as <-; auto]. split; [apply (vec_reserve_fits _ _ _ E1 Cap)|].
    apply vec_reserve_run in E1 as (-> & _). reflexivity. }
  destruct H1 as [C1 M1].
  apply bind_inv_ok in E as (b & s0 & E0 & E). injection E0 as <- <-. change (h_mem (x_heap s1)) with (memory s1) in E.
  rewrite M1 in E. apply bind_inv_ok in E as (a & s0 & E0 & E). apply ovf_run in E0 as [-> U]. apply no_wrap_add in U; [|exact NW]. subst a.
  apply bind_inv_ok in E as ([] & s2 & E2 & E). unfold vec_resize in E2.
  apply bind_inv_ok in E2 as (l & s0 & E0 & E2). injection E0 as <- <-. change (h_mem (x_heap s1)) with (memory s1) in E2.
  rewrite M1 in E2. destruct (N.ltb_spec (len (memory s)) (len (memory s) + size)) as [_|X]; [|lia].
  replace (len (memory s) + size - len (memory s)) with size in E2 by lia.
  apply bind_inv_ok in E2 as ([] & s3 & E3 & _). pose proof (proj2 (vec_reserve_fits _ _ _ E3 C1) PS). congruence.
Qed.

(** ... and in a debug build it never goes on when the length is negative. *)
Theorem C42_newarr_negative fuel fr s bs t n rest out s' tn v : ready Debug (x_vm s) ->
  code_here fr (x8d :: bs) -> List.length bs = 4%nat ->
  denotes_type (x_vm s) (fr_assembly fr) (Z.to_N (number bs)) t -> x_operands s = VInt I32 n :: rest -> (- 2 ^ 31 <= n < 0)%Z ->
  builtin (x_vm s) tn t -> type_name_of v = Some tn -> h_cap (x_heap s) < 2 ^ 63 ->
  step fuel Debug fr s <> Ok out s'.
Proof.
  intros R C L D O Hn B T Cap E. pose proof C as C1. apply (code_here_prefix fr [x8d] bs) in C1. revert E. step_at C1. unfold newarr.
  rewrite (type_token Debug fr s x8d bs t (fun t0 fr0 => n <- pop_i32 ;; o <- alloc_array fuel Debug t0 (to_unsigned 64 n) ;; push (VObject o) ;;; next fr0) C L D).
  unfold bind at 1. rewrite (pop_i32_run _ _ _ O). intro E. pose proof (negative_index _ Hn) as Big.
  apply bind_inv_ok in E as (o & s1 & A & _). unfold alloc_array in A.
  apply bind_inv_ok in A as (z & s2 & E1 & A). apply on_vm_pure in E1 as [-> E1]; [|apply pure_type_size].
  destruct (type_size_run _ _ (proj1 R) _ _ _ _ E1) as (_ & m & Sz & [_ Cm]). specialize (Cm eq_refl). subst z.
  rewrite (size_unique _ _ _ _ Sz (size_primitive _ _ _ (number_width _ _ _ _ T (builtin_named _ _ _ _ R B)))) in A.
  apply bind_inv_ok in A as (k & s2 & E2 & A). apply ovf_run in E2 as [-> U]. apply u_mul_mod in U. destruct U as [_ U]. rewrite (U eq_refl) in A.
  apply bind_inv_ok in A as (sz & s2 & E2 & A). apply ovf_run in E2 as [-> U'].
  apply no_wrap_add in U'; [|discriminate]. subst sz. apply bind_inv_ok in A as (o1 & s2 & E3 & _).
  apply make_room_fits in E3; [|discriminate|unfold array_header; lia|exact Cap].
  assert (1 <= held_size (kind_of v)) by (destruct v as [[]| | |]; try discriminate T; cbn; lia). nia.
Qed.

(** Access to an array of any other type as one of System.Int32 neither reads nor writes elements. *)
Theorem C42_other_type fuel p fr s o t u vs i rest : ready p (x_vm s) -> array_value s o t vs ->
  builtin (x_vm s) int_type u -> t <> u -> len (c_types (x_vm s)) < 2 ^ 32 ->
  (code_here fr [x94] /\ x_operands s = VInt I32 i :: VObject o :: rest \/
   exists v, code_here fr [x9e] /\ x_operands s = VInt I32 v :: VInt I32 i :: VObject o :: rest) ->
  match step fuel p fr s with Err _ s' => s' = set_operands s rest | Panic _ => True | _ => False end.
Proof.
  intros [W S] A B NE Small H.
  assert (Sl : forall k : N -> M machine outcome, match (n <- i32_slice o ;; k n) (set_operands s rest) with
    Err _ s' => s' = set_operands s rest | Panic _ => True | _ => False end).
  { intro k. unfold i32_slice. pose proof A as (id & ti & eid & l & bss & Lid & Et & Ee & El & R & St).
    assert (De : le_dec eid = ti_id ti).
    { destruct Ee as [_ Ee]. rewrite number_le_dec in Ee. now apply N2Z.inj in Ee. }
    assert (Li : len id = 4) by (unfold len; rewrite Lid; reflexivity).
    assert (Le : len eid = 4) by (unfold len; rewrite (proj1 Ee); reflexivity).
    destruct B as (q & Q & I). assert (PI : pt_int q = u).
    { cbn [In] in I. repeat (destruct I as [I|I]; [first [exact (f_equal snd I)|apply (f_equal fst) in I; vm_compute in I; discriminate I]|]). destruct I. }
    destruct (proj2 S int_type u) as (ui & Eu & _); [exists q; auto|].
    assert (X : ti_id ti <> ti_id ui).
    { rewrite (ids_ok _ _ W _ _ Et), (ids_ok _ _ W _ _ Eu). pose proof (nth_lt _ _ _ Et) as L1. pose proof (nth_lt _ _ _ Eu) as L2.
      unfold len in Small. rewrite !N.mod_small by lia. lia. }
    set (s0 := set_operands s rest).
    assert (L5 : load o 5 4 s0 = Ok eid s0).
    { apply load_stored; [|exact Le]. replace 5 with (0 + len ([x02] ++ id)) by (rewrite !len_app, Li; reflexivity).
      apply stored_part with (c := l ++ concat bss). rewrite <- !app_assoc. exact St. }
    assert (L1 : load o 1 4 s0 = Ok id s0).
    { apply load_stored; [|exact Li]. apply (stored_part s0 o 0 [x02] id (eid ++ l ++ concat bss)). exact St. }
    assert (AS : array_slice o (HInt I32) s0 = Ok None s0).
    { unfold array_slice, bind at 1. rewrite (on_vm_stays the_primitives s0 q) by (unfold the_primitives; change (x_vm s0) with (x_vm s); now rewrite Q).
      cbn [managed_type]. rewrite PI. unfold bind at 1.
      rewrite (on_vm_stays (id_of u) s0 (ti_id ui)) by (unfold id_of, bind, the_type; change (x_vm s0) with (x_vm s); now rewrite Eu).
      unfold bind. rewrite L5, De. destruct (N.eqb_spec (ti_id ti) (ti_id ui)); [contradiction|]. reflexivity. }
    unfold bind at 2. unfold bind at 1. rewrite AS. unfold type_of. unfold bind at 1. unfold bind at 1. rewrite L1. cbv beta iota.
    destruct (_ <? _); [|exact Logic.I]. cbv beta iota.
    pose proof (pure_named "System.Int32[]" (x_vm s0)) as PN. unfold bind, on_vm, fail in *. destruct (named "System.Int32[]" (x_vm s0)) as [a v|e v| | |] eqn:EN; subst; try exact Logic.I; try (destruct s; reflexivity); exfalso; revert EN; clear; unfold named, bind, get_type, unwrap, ret, panic; destruct (map_get bytes_eqb (bytes_of_string "System.Int32[]") (c_type_map (x_vm s0))); discriminate. }
  destruct H as [[C O]|(v & C & O)]; step_at C.
  - unfold ldelem_i4. unfold bind at 1. rewrite (pop_i32_run _ _ _ O).
    unfold bind at 1. rewrite (pop_array_ok (set_operands s (VObject o :: rest)) o t p rest (conj W S) _ A eq_refl). apply Sl.
  - unfold stelem_i4. unfold bind at 1. rewrite (pop_i32_run _ _ _ O).
    unfold bind at 1. rewrite (pop_i32_run (set_operands s (VInt I32 i :: VObject o :: rest)) i (VObject o :: rest) eq_refl).
    unfold bind at 1. rewrite (pop_array_ok (set_operands (set_operands s (VInt I32 i :: VObject o :: rest)) (VObject o :: rest)) o t p rest (conj W S) _ A eq_refl).
    apply Sl.
Qed.

(** Arrays of references are allocated with the size of the fields of their element type, but used as
    arrays of pointers of eight bytes: the slice of a new array of System.Object lies outside the heap. *)
Theorem C42_reference_refuted p s t length o s' : ready p (x_vm s) -> granted p s (an_array t length) o s' ->
  builtin (x_vm s) (bytes_of_string "System.Object") t -> 0 < length ->
  size (c_types (x_vm s')) t 0 -> no_wrap p (len (memory s) + 17) ->
  (exists w, array_slice o HObject s' = Ub w) /\
  (forall i v, i < length -> exists w, array_set o i (VObject v) s' = Ub w).
Proof.
  intros [W S] G B Pos Sz NW. destruct (granted_ok _ _ _ _ _ W G) as (W' & Ap & bs & Bl & A).
  assert (Ln : length < 2 ^ 64) by (now inversion G).
  inversion Bl as [|t' ti u ui m length' id eid l Eu Ei Lu Et Ee Sz' El|]; subst.
  rewrite (size_unique _ _ _ _ Sz' Sz) in *. clear Sz' m.
  assert (Li : len id = 4) by (unfold len; rewrite (proj1 Ei); reflexivity).
  assert (Le : len eid = 4) by (unfold len; rewrite (proj1 Ee); reflexivity).
  assert (Ll : len l = 8) by (unfold len; rewrite (proj1 El); reflexivity).
  cbn [N.mul] in *. unfold zeros in A. cbn [N.to_nat repeat] in A. rewrite app_nil_r in A.
  destruct A as (M & -> & _).
  { rewrite !len_app, Li, Le, Ll. exact NW. }
  assert (St : stored s' (mkObj (h_gen (x_heap s')) (len (memory s))) 0 ([x02] ++ id ++ eid ++ l)).
  { split; [reflexivity|]. exists (memory s), []. rewrite app_nil_r, N.add_0_r. auto. }
  assert (De : le_dec eid = ti_id ti).
  { destruct Ee as [_ Ee]. rewrite number_le_dec in Ee. now apply N2Z.inj in Ee. }
  assert (DD : le_dec l = length). { destruct El as [_ El]. rewrite number_le_dec in El. now apply N2Z.inj in El. }
  destruct B as (q & Q & I). assert (Q' : c_primitives (x_vm s') = Some q) by (destruct Ap; congruence).
  assert (PO : pt_object q = t).
  { cbn [In] in I. repeat (destruct I as [I|I]; [first [exact (f_equal snd I)|apply (f_equal fst) in I; vm_compute in I; discriminate I]|]). destruct I. }
  set (o := mkObj (h_gen (x_heap s')) (len (memory s))) in *.
  assert (L9 : load o 9 8 s' = Ok l s').
  { apply load_stored; [|exact Ll]. replace 9 with (0 + len ([x02] ++ id ++ eid)) by (rewrite !len_app, Li, Le; reflexivity).
    apply stored_last. rewrite <- !app_assoc. exact St. }
  assert (Sl : exists w, array_slice o HObject s' = Ub w).
  { unfold array_slice, bind at 1. rewrite (on_vm_stays the_primitives s' q) by (unfold the_primitives; now rewrite Q').
    cbn [managed_type]. rewrite PO. unfold bind at 1.
    rewrite (on_vm_stays (id_of t) s' (ti_id ti)) by (unfold id_of, bind, the_type; now rewrite Et).
    unfold bind at 1. rewrite (load_stored s' o 5 4 eid);
      [|replace 5 with (0 + len ([x02] ++ id)) by (rewrite !len_app, Li; reflexivity);
        apply stored_part with (c := l); rewrite <- !app_assoc; exact St|exact Le].
    rewrite De, N.eqb_refl. unfold bind at 1. rewrite L9, DD. unfold bind at 1. unfold load. cbn [o_gen o].
    subst o. cbn [o_gen o_off]. rewrite Nat.eqb_refl. cbn [negb]. change (h_mem (x_heap s')) with (memory s'). rewrite M.
    replace (_ <=? _) with false; [eexists; reflexivity|]. symmetry. apply N.leb_gt. rewrite !len_app, Li, Le, Ll.
    unfold array_header. cbn [held_size]. change (len [x02]) with 1. lia. }
  split; [exact Sl|]. intros i v Hi. unfold array_set, bind at 1. rewrite L9, DD.
  replace (length <=? i) with false by (symmetry; apply N.leb_gt; exact Hi). unfold bind at 1.
  rewrite (on_vm_stays the_primitives s' q) by (unfold the_primitives; now rewrite Q'). cbn [held_bytes]. unfold bind.
  destruct Sl as [w ->]. eauto.
Qed.

(** ** C43: strings *)

(** A new string has the requested text, ... *)
Theorem C43_new p s text o s' : consistent p (x_vm s) -> granted p s (a_string text) o s' ->
  no_wrap p (len (memory s) + 13 + 2 * len text) -> string_value s' o text.
Proof.
  intros W G NW. destruct (C39_fresh _ _ _ _ _ W G) as (_ & bs & B & A).
  inversion B as [| |u ui text' id l cs Eu Ei Lu El Cs]; subst.
  assert (Li : len id = 4) by (unfold len; rewrite (proj1 Ei); reflexivity).
  assert (Ll : len l = 8) by (unfold len; rewrite (proj1 El); reflexivity).
  assert (Lc : len (concat cs) = 2 * len text).
  { clear - Cs. induction Cs as [|u c text cs H Cs IH]; [reflexivity|]. cbn [concat]. rewrite len_app, len_cons, IH.
    unfold len at 1. rewrite (proj1 H). lia. }
  destruct A as (M & -> & _).
  { rewrite !len_app, Li, Ll, Lc. change (len [x04]) with 1.
    replace (len (memory s) + (1 + (4 + (8 + 2 * len text)))) with (len (memory s) + 13 + 2 * len text) by lia. exact NW. }
  exists id, l, cs. split; [exact (proj1 Ei)|]. split; [exact El|]. split; [exact Cs|].
  split; [reflexivity|]. exists (memory s), []. rewrite app_nil_r, N.add_0_r. auto.
Qed.
(** ... reading it gives that text, ... *)
Theorem C43_read s o text : string_value s o text -> string_data o s = Ok text s.
Proof.
  intros (id & l & cs & Lid & El & Cs & St).
  assert (Li : len id = 4) by (unfold len; rewrite Lid; reflexivity).
  assert (Ll : len l = 8) by (unfold len; rewrite (proj1 El); reflexivity).
  assert (DD : le_dec l = len text). { destruct El as [_ El]. rewrite number_le_dec in El. now apply N2Z.inj in El. }
  assert (Lc : len (concat cs) = 2 * len text).
  { clear - Cs. induction Cs as [|u c text cs H Cs IH]; [reflexivity|]. cbn [concat]. rewrite len_app, len_cons, IH.
    unfold len at 1. rewrite (proj1 H). lia. }
  unfold string_data, bind. rewrite (load_stored s o 5 8 l);
    [|replace 5 with (0 + len ([x04] ++ id)) by (rewrite !len_app, Li; reflexivity);
      apply stored_part with (c := concat cs); rewrite <- !app_assoc; exact St|exact Ll].
  rewrite DD. rewrite (load_stored s o string_header _ (concat cs)); [| |exact Lc].
  - unfold ret. f_equal. unfold len. rewrite Nat2N.id. clear - Cs. induction Cs as [|u c text cs H Cs IH]; [reflexivity|].
    cbn [List.length concat chunks map]. destruct H as [L E]. destruct c as [|a [|b [|]]]; try discriminate L.
    cbn [app firstn skipn map]. f_equal; [|exact IH]. rewrite number_le_dec in E. now apply N2Z.inj in E.
  - replace string_header with (0 + len ([x04] ++ id ++ l)) by (rewrite !len_app, Li, Ll; reflexivity).
    apply stored_last. rewrite <- !app_assoc. exact St.
Qed.
(** ... and later allocations and writes elsewhere do not change it, as long as the heap does not move. *)
Theorem C43_kept p s l s' o text : consistent p (x_vm s) -> grants p s l s' -> len (memory s') <= h_cap (x_heap s) ->
  string_value s o text -> string_value s' o text.
Proof.
  intros W G L (id & lb & cs & Lid & El & Cs & St). exists id, lb, cs. do 3 (split; [assumption|]).
  exact (proj2 (C40_partial _ _ _ _ W G L) _ _ _ St).
Qed.
Theorem C43_apart s s' o d n o' text : only_writes s s' o d n -> string_value s o' text ->
  o_off o' + 13 + 2 * len text <= o_off o + d \/ o_off o + d + n <= o_off o' -> string_value s' o' text.
Proof.
  intros Wr (id & lb & cs & Lid & El & Cs & St) D. exists id, lb, cs. do 3 (split; [assumption|]).
  assert (Lc : len (concat cs) = 2 * len text).
  { clear - Cs. induction Cs as [|u c text cs H Cs IH]; [reflexivity|]. cbn [concat]. rewrite len_app, len_cons, IH.
    unfold len at 1. rewrite (proj1 H). lia. }
  assert (Li : len id = 4) by (unfold len; rewrite Lid; reflexivity).
  assert (Ll : len lb = 8) by (unfold len; rewrite (proj1 El); reflexivity).
  eapply writes_keep; eauto. rewrite !len_app, Lc, Li, Ll. change (len [x04]) with 1. lia.
Qed.

Lemma denotes_string_get p s a tok text : denotes_string s a tok text -> get_string p a tok s = Ok (Some text) s.
Proof.
  intros (ai & before & lst & after & Ea & Hb & -> & Un & L & Sl & E). unfold get_string, bind at 1, the_assembly. rewrite Ea.
  destruct (token_parts 0x70 (len before)) as [T1 T2]; [easy|exact Hb|]. rewrite T1, T2. change (0x70 =? 0x70) with true. cbn match.
  assert (Sl' : slice_ok (before ++ compress (2 * len text + 1) ++ (units_le text ++ [lst]) ++ after)) by (rewrite <- E; exact Sl).
  destruct (C16_user_string_in_heap p before text lst after Un L Sl') as (r & r' & B & U). rewrite <- E in B.
  unfold blob_heap_reader in B. destruct (len (a_user_strings ai) <? len before) eqn:Lt; [discriminate|].
  unfold lift, slice_from, bind, try_m, on_reader, ret. rewrite Lt, B. now rewrite U.
Qed.

(** The instruction that loads a literal pushes a new string with the text of the literal. *)
Theorem C43_literal fuel p fr s bs text out s' : consistent p (x_vm s) ->
  code_here fr (x72 :: bs) -> List.length bs = 4%nat ->
  denotes_string (x_vm s) (fr_assembly fr) (Z.to_N (number bs)) text -> len (memory s) < 2 ^ 63 ->
  step fuel p fr s = Ok out s' ->
  exists fr' o, out = ONext fr' /\ frame_at fr fr' (fr_ip fr + 5) /\ x_operands s' = VObject o :: x_operands s /\
    o_off o = len (memory s) /\ string_value s' o text.
Proof.
  intros W C L D Lm E. pose proof D as D0. rewrite number_le_dec, N2Z.id in D. pose proof C as C1. apply (code_here_prefix fr [x72] bs) in C1.
  revert E. step_at C1. intro E. unfold ldstr in E.
  pose proof (code_here_drop fr [x72] bs C) as C'. change (len [x72]) with 1 in C'.
  rewrite (fetched _ _ bs _ s C') in E by (unfold len; rewrite L; reflexivity). cbv beta iota in E. cbn [fr_ip set_ip fr_assembly] in E.
  unfold bind at 1 in E. rewrite (on_vm_stays _ s _ (denotes_string_get p _ _ _ _ D)) in E.
  apply bind_inv_ok in E as (o & s1 & A & E). destruct D0 as (ai & before & lst & after & Ea & Hb & _ & Un & Lt & Sl & _).
  assert (G : granted p s (a_string text) o s1).
  { apply string_granted; [exact Un| |exact A]. change (2 ^ 29) with 536870912 in Lt. change (2 ^ 64) with 18446744073709551616. lia. }
  assert (NW : no_wrap p (len (memory s) + 13 + 2 * len text)).
  { intros _. change (2 ^ 29) with 536870912 in Lt. change (2 ^ 63) with 9223372036854775808 in Lm. change (2 ^ 64) with 18446744073709551616. lia. }
  pose proof (C43_new _ _ _ _ _ W G NW) as V.
  assert (O : o_off o = len (memory s) /\ x_operands s1 = x_operands s).
  { destruct (C39_fresh _ _ _ _ _ W G) as (_ & bb & B & Al). destruct Al as (_ & -> & _ & _ & -> & _); [|auto].
    inversion B as [| |u ui text' id l cs Eu Ei Lu El Cs]; subst.
    assert (Lc : len (concat cs) = 2 * len text).
    { clear - Cs. induction Cs as [|u c text cs H Cs IH]; [reflexivity|]. cbn [concat]. rewrite len_app, len_cons, IH.
      unfold len at 1. rewrite (proj1 H). lia. }
    rewrite !len_app, Lc. assert (Li : len id = 4) by (unfold len; rewrite (proj1 Ei); reflexivity).
    assert (Ll : len l = 8) by (unfold len; rewrite (proj1 El); reflexivity). rewrite Li, Ll. change (len [x04]) with 1.
    replace (len (memory s) + (1 + (4 + (8 + 2 * len text)))) with (len (memory s) + 13 + 2 * len text) by lia. exact NW. }
  destruct O as [O1 O2]. unfold push, bind, next, ret in E. injection E as <- <-.
  eexists _, o. split; [reflexivity|]. split; [unfold frame_at; cbn; repeat split; lia|]. cbn [x_operands set_operands].
  split; [now rewrite O2|]. split; [exact O1|exact V].
Qed.

(** ** A run with a negative length

    In a release build the size of the array wraps: [new int[-1]] succeeds with hardly any storage, and
    the first access to it leaves the heap.  [new int[-5]] panics because the vector becomes too large. *)
Theorem C39_negative_refuted : exists s m, history Release no_files [] s /\ mt_static m = true /\
  (exists w, execute 100 Release m (ints [-1; 0]%Z) s = Ub w) /\
  (exists w, execute 100 Release m (ints [-5; 0]%Z) s = Panic w).
Proof.
  exists demo_lab, (lab "Get"). split; [apply demo_lab_history|]. split; [reflexivity|].
  split; eexists; vm_compute; reflexivity.
Qed.

(** ** Examples for the theorems above

    An object of the class Box of the example assembly (int x; long y; short s; short t), an array of
    three System.Int32 and a string are allocated one after the other. *)
Definition got {A} (d : A) (r : res machine A) : A := match r with Ok a _ => a | _ => d end.
Definition then_ {A} (d : machine) (r : res machine A) : machine := match r with Ok _ s => s | _ => d end.
Definition succeeds {A} (r : res machine A) : bool := match r with Ok _ _ => true | _ => false end.
Lemma succeeds_ok {A} d d' (r : res machine A) : succeeds r = true -> r = Ok (got d r) (then_ d' r).
Proof. now destruct r. Qed.

Definition answer {A} (r : res vm (run_result * A)) : option run_result := match r with Ok (x, _) _ => Some x | _ => None end.

Definition nothing : obj := mkObj 0 0.
Definition box_type : tref := 22%nat.
Definition int_ref : tref := 10%nat.
Definition object_ref : tref := 1%nat.
Definition m0 : machine := new_machine demo_lab [].
Definition box (p : profile) := got nothing (alloc 10 p box_type m0).
Definition m1 (p : profile) := then_ m0 (alloc 10 p box_type m0).
Definition arr (p : profile) := got nothing (alloc_array 10 p int_ref 3 (m1 p)).
Definition m2 (p : profile) := then_ m0 (alloc_array 10 p int_ref 3 (m1 p)).
Definition greeting : list N := [0x48; 0xd83d; 0xde00].
Definition str (p : profile) := got nothing (alloc_string p greeting (m2 p)).
Definition m3 (p : profile) := then_ m0 (alloc_string p greeting (m2 p)).

Lemma m0_ready p : ready p (x_vm m0).
Proof. exact (history_ready _ _ _ _ (demo_lab_history p)). Qed.
Lemma granted1 p : granted p m0 (an_object box_type) (box p) (m1 p).
Proof.
  apply object_granted with (fuel := 10%nat). unfold box, m1.
  refine (succeeds_ok nothing m0 (alloc 10 p box_type m0) _). destruct p; vm_compute; reflexivity.
Qed.
Lemma granted2 p : granted p (m1 p) (an_array int_ref 3) (arr p) (m2 p).
Proof.
  apply array_granted with (fuel := 10%nat); [reflexivity|]. unfold arr, m2.
  refine (succeeds_ok nothing m0 (alloc_array 10 p int_ref 3 (m1 p)) _). destruct p; vm_compute; reflexivity.
Qed.
Lemma granted3 p : granted p (m2 p) (a_string greeting) (str p) (m3 p).
Proof.
  apply string_granted; [unfold greeting; repeat constructor|reflexivity|]. unfold str, m3.
  refine (succeeds_ok nothing m0 (alloc_string p greeting (m2 p)) _). destruct p; vm_compute; reflexivity.
Qed.
Lemma granted_ready p s r o s' : ready p (x_vm s) -> granted p s r o s' -> ready p (x_vm s').
Proof.
  intros [W S] G. destruct (granted_ok _ _ _ _ _ W G) as (W' & A & _). split; [exact W'|].
  eapply started_grows; [exact S|]. apply evolves_grows, appends_evolves, A.
Qed.
Lemma m1_ready p : ready p (x_vm (m1 p)). Proof. exact (granted_ready _ _ _ _ _ (m0_ready p) (granted1 p)). Qed.
Lemma m2_ready p : ready p (x_vm (m2 p)). Proof. exact (granted_ready _ _ _ _ _ (m1_ready p) (granted2 p)). Qed.
Lemma m3_ready p : ready p (x_vm (m3 p)). Proof. exact (granted_ready _ _ _ _ _ (m2_ready p) (granted3 p)). Qed.

(** One block behind the other: 21, 29 and 19 bytes. *)
Example C39_ex p : exists bs1 bs2 bs3, grants p m0 [(box p, bs1); (arr p, bs2); (str p, bs3)] (m3 p) /\
  memory (m3 p) = bs1 ++ bs2 ++ bs3 /\ len (memory (m3 p)) <= h_cap (x_heap m0) /\
  o_off (box p) = 0 /\ o_off (arr p) = 21 /\ o_off (str p) = 50.
Proof.
  destruct (C39_fresh _ _ _ _ _ (proj1 (m0_ready p)) (granted1 p)) as (_ & bs1 & B1 & A1).
  destruct (C39_fresh _ _ _ _ _ (proj1 (m1_ready p)) (granted2 p)) as (_ & bs2 & B2 & A2).
  destruct (C39_fresh _ _ _ _ _ (proj1 (m2_ready p)) (granted3 p)) as (_ & bs3 & B3 & A3).
  assert (L1 : len bs1 < 2 ^ 32 /\ len bs2 < 2 ^ 32 /\ len bs3 < 2 ^ 32).
  { assert (SB : forall p t n ty v, ready p ty -> is_named (c_types ty) t n -> type_name_of v = Some n -> size (c_types ty) t (held_size (kind_of v))).
    { intros. apply size_primitive. eapply number_width; eauto. }
    split; [|split].
    - inversion B1 as [t ti n id Et Ei Sz| |]; subst. rewrite !len_app. unfold zeros. rewrite len_zeros. unfold len at 2. rewrite (proj1 Ei).
      assert (Q : exists s', type_size 10 Debug box_type (x_vm (m1 p)) = Ok 16 s') by (destruct p; vm_compute; eauto).
      destruct Q as (s' & Q).
      assert (WD : consistent Debug (x_vm (m1 p))).
      { replace (x_vm (m1 p)) with demo_lab by (destruct p; vm_compute; reflexivity). apply (history_ready _ _ _ _ (demo_lab_history Debug)). }
      destruct (type_size_run _ _ WD _ _ _ _ Q) as (_ & k & Sk & [_ Ck]). rewrite (size_unique _ _ _ _ Sz Sk), <- (Ck eq_refl). vm_compute. reflexivity.
    - inversion B2 as [|t ti u ui n l id eid lb Eu Ei Lu Et Ee Sz El|]; subst. rewrite !len_app. unfold zeros. rewrite len_zeros.
      assert (Nm : is_named (c_types (x_vm (m2 p))) int_ref int_type).
      { eexists. split; destruct p; vm_compute; reflexivity. }
      rewrite (size_unique _ _ _ _ Sz (SB p _ _ _ (VInt I32 0) (m2_ready p) Nm eq_refl)).
      unfold len at 2 3 4. rewrite (proj1 Ei), (proj1 Ee), (proj1 El). vm_compute. reflexivity.
    - inversion B3 as [| |u ui text id l cs Eu Ei Lu El Cs]; subst. rewrite !len_app.
      assert (Lc : len (concat cs) = 2 * len greeting).
      { clear - Cs. induction Cs as [|u c text cs H Cs IH]; [reflexivity|]. cbn [concat]. rewrite len_app, len_cons, IH.
        unfold len at 1. rewrite (proj1 H). lia. }
      rewrite Lc. unfold len at 2 3. rewrite (proj1 Ei), (proj1 El). vm_compute. reflexivity. }
  change (2 ^ 32) with 4294967296 in L1.
  assert (NW : forall m (bs : list byte), len (memory m) < 2 ^ 32 -> len bs < 4294967296 -> no_wrap p (len (memory m) + len bs)).
  { intros m bs H1 H2 _. change (2 ^ 32) with 4294967296 in H1. change (2 ^ 64) with 18446744073709551616. lia. }
  assert (N1 : no_wrap p (len (memory m0) + len bs1)) by (apply NW; [reflexivity|apply L1]).
  assert (N2 : no_wrap p (len (memory (m1 p)) + len bs2)) by (apply NW; [destruct p; vm_compute; reflexivity|apply L1]).
  assert (N3 : no_wrap p (len (memory (m2 p)) + len bs3)) by (apply NW; [destruct p; vm_compute; reflexivity|apply L1]).
  exists bs1, bs2, bs3. split.
  { refine (SpecHeap.one_more p m0 [(box p, bs1); (arr p, bs2)] (m2 p) _ (str p) bs3 (m3 p) _ (granted3 p) B3 N3).
    refine (SpecHeap.one_more p m0 [(box p, bs1)] (m1 p) _ (arr p) bs2 (m2 p) _ (granted2 p) B2 N2).
    exact (SpecHeap.one_more p m0 [] m0 _ (box p) bs1 (m1 p) (no_more p m0) (granted1 p) B1 N1). }
  split.
  { rewrite (proj1 (A3 N3)), (proj1 (A2 N2)), (proj1 (A1 N1)). now rewrite <- app_assoc. }
  destruct p; vm_compute; repeat split; discriminate.
Qed.

(** A string of 600 units does not fit into the 1024 bytes that the heap has at first. *)
Definition long_text : list N := repeat 0x61 600.
Definition m4 (p : profile) := then_ m0 (alloc_string p long_text (m1 p)).
Example C40_refuted_ex p : exists o bs, grants p (m1 p) [(o, bs)] (m4 p) /\ len (memory (m1 p)) <= h_cap (x_heap (m1 p)) /\
  h_cap (x_heap (m1 p)) < len (memory (m4 p)) /\ o_gen (box p) = h_gen (x_heap (m1 p)).
Proof.
  set (o := got nothing (alloc_string p long_text (m1 p))). exists o.
  assert (G : granted p (m1 p) (a_string long_text) o (m4 p)).
  { apply string_granted; [|reflexivity|].
    - apply Forall_forall. intros u I. apply repeat_spec in I. subst u. reflexivity.
    - unfold o, m4. refine (succeeds_ok nothing m0 (alloc_string p long_text (m1 p)) _). destruct p; vm_compute; reflexivity. }
  destruct (C39_fresh _ _ _ _ _ (proj1 (m1_ready p)) G) as (_ & bs & B & A).
  exists bs. split; [|destruct p; vm_compute; repeat split; discriminate].
  refine (SpecHeap.one_more p (m1 p) [] (m1 p) _ o bs (m4 p) (no_more p (m1 p)) G B _).
  inversion B as [| |u ui text id l cs Eu Ei Lu El Cs]; subst. intros _. rewrite !len_app.
  assert (Lc : len (concat cs) = 2 * len long_text).
  { clear - Cs. induction Cs as [|u c text cs H Cs IH]; [reflexivity|]. cbn [concat]. rewrite len_app, len_cons, IH.
    unfold len at 1. rewrite (proj1 H). lia. }
  rewrite Lc. unfold len at 3 4. rewrite (proj1 Ei), (proj1 El). destruct p; vm_compute; reflexivity.
Qed.
(** A program that fills the heap: it keeps ten arrays, but loses the first one of a thousand. *)
Example C40_runs p : answer (execute 100 p (lab "Grow") (ints [10%Z]) demo_lab) = Some (RValue (VInt I32 7)) /\
  (exists w, execute 4000 p (lab "Grow") (ints [1000%Z]) demo_lab = Ub w).
Proof. split; destruct p; vm_compute; eauto. Qed.

(** The fields x and s, t of the object; the tokens of x and s. *)
Definition lab_field (i : nat) : field_info :=
  match nth_error (c_arena demo_lab) 2 with
  | Some (Some ai) => nth i (a_fields ai) (mkField [] 0%nat 0%nat false 0)
  | _ => mkField [] 0%nat 0%nat false 0
  end.
Definition frame_with (code : list byte) : frame := mkFrame (lab "MakeX") 2%nat code 0 CHost CHost.
Lemma here_it_is code : code_here (frame_with code) code.
Proof. exists [], []. rewrite app_nil_r. auto. Qed.
Lemma box_size p : size (c_types (x_vm (m1 p))) box_type 16.
Proof.
  assert (Q : exists s', type_size 10 Debug box_type (x_vm (m1 p)) = Ok 16 s') by (destruct p; vm_compute; eauto).
  destruct Q as (s' & Q).
  assert (WD : consistent Debug (x_vm (m1 p))).
  { replace (x_vm (m1 p)) with demo_lab by (destruct p; vm_compute; reflexivity). apply (history_ready _ _ _ _ (demo_lab_history Debug)). }
  destruct (type_size_run _ _ WD _ _ _ _ Q) as (_ & k & Sk & [_ Ck]). rewrite (Ck eq_refl). exact Sk.
Qed.
Lemma new_field p i v k tn : type_name_of v = Some tn -> represents v (zeros k) ->
  (exists ti, nth_error (c_types (x_vm (m1 p))) (f_type (lab_field i)) = Some ti /\ ti_full_name ti = tn) ->
  f_offset (lab_field i) + k <= 16 -> field_value (m1 p) (box p) (lab_field i) v.
Proof.
  intros T R N L.
  assert (E : exists ti, nth_error (c_types (x_vm m0)) box_type = Some ti) by (vm_compute; eauto). destruct E as [ti E].
  refine (C41_new p m0 box_type ti (box p) (m1 p) 16 (lab_field i) v k tn (proj1 (m0_ready p)) (granted1 p) E (box_size p) _ T N R L).
  intros _. vm_compute. reflexivity.
Qed.
Lemma field_x p : field_value (m1 p) (box p) (lab_field 0) (VInt I32 0).
Proof.
  apply new_field with (k := 4) (tn := int_type); [reflexivity| | |vm_compute; discriminate].
  - apply signed_bytes; reflexivity.
  - destruct p; vm_compute; eexists; split; reflexivity.
Qed.
Lemma field_s p : field_value (m1 p) (box p) (lab_field 2) (VInt I16 0).
Proof.
  apply new_field with (k := 2) (tn := bytes_of_string "System.Int16"); [reflexivity| | |vm_compute; discriminate].
  - apply signed_bytes; reflexivity.
  - destruct p; vm_compute; eexists; split; reflexivity.
Qed.
Lemma field_t p : field_value (m1 p) (box p) (lab_field 3) (VInt I16 0).
Proof.
  apply new_field with (k := 2) (tn := bytes_of_string "System.Int16"); [reflexivity| | |vm_compute; discriminate].
  - apply signed_bytes; reflexivity.
  - destruct p; vm_compute; eexists; split; reflexivity.
Qed.
Definition lab_assembly : option assembly_info := match nth_error (c_arena demo_lab) 2 with Some o => o | None => None end.
Lemma lab_vm p : x_vm (m1 p) = demo_lab. Proof. destruct p; vm_compute; reflexivity. Qed.
Lemma lab_token i : (i < 4)%nat -> denotes_field demo_lab 2%nat (4 * 2 ^ 24 + (N.of_nat i + 1)) (lab_field i).
Proof.
  intro H. destruct lab_assembly as [ai|] eqn:E; [|discriminate E]. exists ai, (N.of_nat i). split; [exact (f_equal Some E)|].
  split; [change (2 ^ 24) with 16777216; lia|]. split; [reflexivity|]. rewrite Nat2N.id.
  assert (X : a_fields ai = a_fields match lab_assembly with Some a => a | None => ai end) by (now rewrite E).
  assert (L : List.length (a_fields ai) = 4%nat) by (rewrite X; vm_compute; reflexivity).
  unfold lab_field. change (nth_error (c_arena demo_lab) 2) with (Some lab_assembly). rewrite E.
  apply nth_error_nth'. lia.
Qed.

(** Loading x gives 0; after storing 77 it gives 77, and s is still 0. *)
Example C41_ex p : exists fr1 s1 fr2 s2 fr3 s3,
  step 10 p (frame_with [x7b; x01; x00; x00; x04]) (set_operands (m1 p) [VObject (box p)]) = Ok (ONext fr1) s1 /\
  x_operands s1 = [VInt I32 0] /\
  step 10 p (frame_with [x7d; x01; x00; x00; x04]) (set_operands (m1 p) [VInt I32 77; VObject (box p)]) = Ok (ONext fr2) s2 /\
  step 10 p (frame_with [x7b; x01; x00; x00; x04]) (set_operands s2 [VObject (box p)]) = Ok (ONext fr3) s3 /\
  x_operands s3 = [VInt I32 77] /\ field_value s2 (box p) (lab_field 2) (VInt I16 0).
Proof.
  assert (R77 : represents (VInt I32 77) [x4d; x00; x00; x00]) by (apply signed_bytes; reflexivity).
  assert (D : forall s code, x_vm s = demo_lab -> denotes_field (x_vm s) (fr_assembly (frame_with code)) (Z.to_N (number [x01; x00; x00; x04])) (lab_field 0)).
  { intros s code ->. exact (lab_token 0 ltac:(lia)). }
  pose proof (C41_load 10 p _ (set_operands (m1 p) [VObject (box p)]) [x01; x00; x00; x04] (lab_field 0) (box p) (VInt I32 0) []
    (m1_ready p) (here_it_is _) eq_refl (D _ _ (lab_vm p)) eq_refl (field_x p)) as (fr1 & s1 & E1 & F1 & _ & _ & _ & _ & _ & O1).
  destruct (C41_store 10 p _ (set_operands (m1 p) [VInt I32 77; VObject (box p)]) [x01; x00; x00; x04] (lab_field 0) (box p) (VInt I32 77) [] (VInt I32 0) _
    (here_it_is _) eq_refl (D _ _ (lab_vm p)) eq_refl (field_x p) eq_refl R77) as (fr2 & s2 & E2 & F2 & _ & V2 & W2).
  assert (M2 : x_vm s2 = x_vm (m1 p)) by (apply W2).
  assert (R2 : ready p (x_vm (set_operands s2 [VObject (box p)]))) by (cbn; rewrite M2; apply m1_ready).
  pose proof (C41_load 10 p _ (set_operands s2 [VObject (box p)]) [x01; x00; x00; x04] (lab_field 0) (box p) (VInt I32 77) []
    R2 (here_it_is _) eq_refl (D (set_operands s2 [VObject (box p)]) _ (eq_trans M2 (lab_vm p))) eq_refl V2) as (fr3 & s3 & E3 & F3 & _ & _ & _ & _ & _ & O3).
  exists fr1, s1, fr2, s2, fr3, s3.
  split; [exact E1|]. split; [exact O1|]. split; [exact E2|]. split; [exact E3|]. split; [exact O3|].
  assert (R0 : represents (VInt I16 0) [x00; x00]) by (apply signed_bytes; reflexivity).
  assert (Offs : f_offset (lab_field 0) = 0 /\ f_offset (lab_field 2) = 12) by (vm_compute; auto).
  refine (C41_other (set_operands (m1 p) [VInt I32 77; VObject (box p)]) s2 (box p) _ _ (box p) (lab_field 2) (VInt I16 0) _ W2 (field_s p) R0 _ _);
    destruct Offs as [O0 O2]; rewrite ?O0, ?O2; change (len [x4d; x00; x00; x00]) with 4; change (len [x00; x00]) with 2; lia.
Qed.
(** Storing an int into s changes t; in the last field of the last object it leaves the heap. *)
Example C41_narrow_ex p : exists fr' s',
  step 10 p (frame_with [x7d; x03; x00; x00; x04]) (set_operands (m1 p) [VInt I32 0x20001; VObject (box p)]) = Ok (ONext fr') s' /\
  field_value s' (box p) (lab_field 2) (VInt I16 1) /\ field_value s' (box p) (lab_field 3) (VInt I16 2).
Proof.
  refine (C41_narrow_refuted 10 p _ (set_operands (m1 p) [VInt I32 0x20001; VObject (box p)]) [x03; x00; x00; x04] (lab_field 2) (lab_field 3) (box p)
    0x20001 [] 0 0 [x01; x00; x02; x00] (here_it_is _) eq_refl _ eq_refl _ (field_s p) (field_t p) _).
  - cbn [x_vm set_operands]. rewrite lab_vm. exact (lab_token 2 ltac:(lia)).
  - apply signed_bytes; reflexivity.
  - vm_compute. reflexivity.
Qed.
Example C41_runs p : answer (execute 100 p (lab "MakeX") (ints [10; 3]%Z) demo_lab) = Some (RValue (VInt I32 7)) /\
  (exists w, execute 100 p (lab "Narrow") (ints [5; 6]%Z) demo_lab = Ub w).
Proof. split; destruct p; vm_compute; eauto. Qed.

(** The array of three zeros. *)
Lemma int_builtin p : builtin (x_vm (m1 p)) int_type int_ref /\ builtin (x_vm (m2 p)) int_type int_ref.
Proof.
  assert (X : forall s, (exists q, c_primitives s = Some q /\ pt_int q = int_ref) -> builtin s int_type int_ref).
  { intros s (q & Q & <-). exists q. split; [exact Q|]. unfold int_type. cbn [In]. auto 10. }
  split; apply X; destruct p; vm_compute; eauto.
Qed.
Lemma arr_value p : array_value (m2 p) (arr p) int_ref (map (VInt I32) [0; 0; 0]%Z).
Proof.
  refine (C42_new p (m1 p) int_ref 3 (arr p) (m2 p) int_type (VInt I32 0) 4 (m1_ready p) (granted2 p) (proj1 (int_builtin p)) eq_refl _ _).
  - apply signed_bytes; reflexivity.
  - intros _. destruct p; vm_compute; reflexivity.
Qed.
(** Storing 9 at 1 and loading 1 and 2; index 3 and index -1. *)
Example C42_ex p : exists fr1 s1, 
  step 10 p (frame_with [x9e]) (set_operands (m2 p) [VInt I32 9; VInt I32 1; VObject (arr p)]) = Ok (ONext fr1) s1 /\
  array_value s1 (arr p) int_ref (map (VInt I32) [0; 9; 0]%Z) /\
  continues (frame_with [x94]) (set_operands s1 [VInt I32 1; VObject (arr p)]) 1 [VInt I32 9]
    (step 10 p (frame_with [x94]) (set_operands s1 [VInt I32 1; VObject (arr p)])) /\
  continues (frame_with [x94]) (set_operands s1 [VInt I32 2; VObject (arr p)]) 1 [VInt I32 0]
    (step 10 p (frame_with [x94]) (set_operands s1 [VInt I32 2; VObject (arr p)])) /\
  panics (step 10 p (frame_with [x94]) (set_operands s1 [VInt I32 3; VObject (arr p)])) /\
  panics (step 10 p (frame_with [x94]) (set_operands s1 [VInt I32 (-1); VObject (arr p)])) /\
  panics (step 10 p (frame_with [x9e]) (set_operands (m2 p) [VInt I32 9; VInt I32 3; VObject (arr p)])).
Proof.
  assert (R9 : represents (VInt I32 9) [x09; x00; x00; x00]) by (apply signed_bytes; reflexivity).
  assert (Lm : len (memory (m2 p)) < 2 ^ 63) by (destruct p; vm_compute; reflexivity).
  destruct (stelem_inside 10 p (frame_with [x9e]) (set_operands (m2 p) [VInt I32 9; VInt I32 1; VObject (arr p)]) (arr p) int_ref [0; 0; 0]%Z 1%Z []
    (m2_ready p) (arr_value p) (proj2 (int_builtin p)) ltac:(lia) Lm 9%Z _ (here_it_is _) eq_refl ltac:(vm_compute; split; [discriminate|reflexivity]) R9)
    as (fr1 & s1 & E1 & _ & _ & A1 & W1).
  assert (M1 : x_vm s1 = x_vm (m2 p)) by (apply W1).
  assert (L1 : len (memory s1) < 2 ^ 63) by (destruct W1 as (_ & _ & _ & -> & _); exact Lm).
  assert (Rd : ready p (x_vm s1)) by (rewrite M1; apply m2_ready).
  assert (B1 : builtin (x_vm s1) int_type int_ref) by (rewrite M1; apply int_builtin).
  exists fr1, s1. split; [exact E1|]. split; [exact A1|]. split; [|split; [|split; [|split]]].
  - exact (ldelem_inside 10 p (frame_with [x94]) (set_operands s1 [VInt I32 1; VObject (arr p)]) (arr p) int_ref [0; 9; 0]%Z 1%Z [] Rd A1 B1 ltac:(lia) L1
      9%Z (here_it_is _) eq_refl ltac:(lia) eq_refl).
  - exact (ldelem_inside 10 p (frame_with [x94]) (set_operands s1 [VInt I32 2; VObject (arr p)]) (arr p) int_ref [0; 9; 0]%Z 2%Z [] Rd A1 B1 ltac:(lia) L1
      0%Z (here_it_is _) eq_refl ltac:(lia) eq_refl).
  - exact (ldelem_outside 10 p (frame_with [x94]) (set_operands s1 [VInt I32 3; VObject (arr p)]) (arr p) int_ref [0; 9; 0]%Z 3%Z [] Rd A1 B1 ltac:(lia) L1
      (here_it_is _) eq_refl ltac:(right; vm_compute; discriminate)).
  - exact (ldelem_outside 10 p (frame_with [x94]) (set_operands s1 [VInt I32 (-1); VObject (arr p)]) (arr p) int_ref [0; 9; 0]%Z (-1)%Z [] Rd A1 B1 ltac:(lia) L1
      (here_it_is _) eq_refl ltac:(left; lia)).
  - exact (stelem_outside 10 p (frame_with [x9e]) (set_operands (m2 p) [VInt I32 9; VInt I32 3; VObject (arr p)]) (arr p) int_ref [0; 0; 0]%Z 3%Z []
      (m2_ready p) (arr_value p) (proj2 (int_builtin p)) ltac:(lia) Lm 9%Z (here_it_is _) eq_refl ltac:(right; vm_compute; discriminate)).
Qed.
(** The same array through the host's interface. *)
Example C42_host_ex p : (exists s', array_set (arr p) 2 (VInt I32 5) (m2 p) = Ok tt s' /\
    array_value s' (arr p) int_ref (map (VInt I32) [0; 0; 5]%Z)) /\
  array_set (arr p) 3 (VInt I32 5) (m2 p) = Err "IndexOutOfRange" (m2 p) /\
  array_slice (arr p) (HInt I32) (m2 p) = Ok (Some 3) (m2 p) /\
  (exists w, slice_get (arr p) (HInt I32) 3 3 (m2 p) = Panic w).
Proof.
  assert (R5 : represents (VInt I32 5) [x05; x00; x00; x00]) by (apply signed_bytes; reflexivity).
  pose proof (fun i => C42_set p (m2 p) (arr p) int_ref _ i (VInt I32 5) int_type _ (m2_ready p) (arr_value p) (proj2 (int_builtin p))
    (ints_typed _) eq_refl R5) as S.
  pose proof (C42_get p (m2 p) (arr p) int_ref _ 3 (VInt I32 5) int_type (m2_ready p) (arr_value p) (proj2 (int_builtin p)) (ints_typed _) eq_refl)
    as (G1 & _ & G2).
  split; [|split; [|split]].
  - destruct (proj1 (S 2) ltac:(vm_compute; reflexivity)) as (s' & E & A & _). exists s'. split; [exact E|exact A].
  - exact (proj2 (S 3) ltac:(vm_compute; discriminate)).
  - exact G1.
  - exact (G2 ltac:(vm_compute; discriminate)).
Qed.
(** [new int[2]] (token of System.Int32: row 2 of the table of type references) and [new int[-1]]. *)
Lemma int_token p : denotes_type (x_vm (m1 p)) 2%nat (Z.to_N (number [x02; x00; x00; x01])) int_ref.
Proof.
  rewrite lab_vm. destruct lab_assembly as [ai|] eqn:E; [|discriminate E]. exists ai, 1. split; [exact (f_equal Some E)|].
  split; [reflexivity|]. right. split; [reflexivity|].
  assert (X : a_type_refs ai = a_type_refs match lab_assembly with Some a => a | None => ai end) by (now rewrite E).
  rewrite X. vm_compute. reflexivity.
Qed.
Example C42_newarr_ex p : exists fr' s' o,
  step 10 p (frame_with [x8d; x02; x00; x00; x01]) (set_operands (m1 p) [VInt I32 2]) = Ok (ONext fr') s' /\
  x_operands s' = [VObject o] /\ o_off o = 21 /\ array_value s' o int_ref (map (VInt I32) [0; 0]%Z).
Proof.
  destruct (step 10 p (frame_with [x8d; x02; x00; x00; x01]) (set_operands (m1 p) [VInt I32 2])) as [out s'| | | |] eqn:E;
    try (exfalso; destruct p; vm_compute in E; discriminate E).
  destruct (C42_newarr 10 p _ (set_operands (m1 p) [VInt I32 2]) [x02; x00; x00; x01] int_ref 2 [] out s' int_type (VInt I32 0) 4
    (m1_ready p) (here_it_is _) eq_refl (int_token p) eq_refl ltac:(lia) (proj1 (int_builtin p)) eq_refl) as (fr' & o & -> & _ & O & F & A);
    [apply signed_bytes; reflexivity|destruct p; vm_compute; reflexivity|exact E|].
  exists fr', s', o. split; [reflexivity|]. split; [exact O|]. split; [|exact A]. rewrite F. destruct p; vm_compute; reflexivity.
Qed.
Example C42_newarr_negative_ex : forall out s',
  step 10 Debug (frame_with [x8d; x02; x00; x00; x01]) (set_operands (m1 Debug) [VInt I32 (-1)]) <> Ok out s'.
Proof.
  intros out s'.
  refine (C42_newarr_negative 10 _ (set_operands (m1 Debug) [VInt I32 (-1)]) [x02; x00; x00; x01] int_ref (-1) [] out s' int_type (VInt I32 0)
    (m1_ready Debug) (here_it_is _) eq_refl (int_token Debug) eq_refl _ (proj1 (int_builtin Debug)) eq_refl _); [lia|vm_compute; reflexivity].
Qed.
(** [new object[2]] and its use. *)
Definition objects (p : profile) := got nothing (alloc_array 10 p object_ref 2 (m1 p)).
Definition m5 (p : profile) := then_ m0 (alloc_array 10 p object_ref 2 (m1 p)).
Lemma granted5 p : granted p (m1 p) (an_array object_ref 2) (objects p) (m5 p).
Proof.
  apply array_granted with (fuel := 10%nat); [reflexivity|]. unfold objects, m5.
  refine (succeeds_ok nothing m0 (alloc_array 10 p object_ref 2 (m1 p)) _). destruct p; vm_compute; reflexivity.
Qed.
Example C42_reference_ex p : exists w, array_slice (objects p) HObject (m5 p) = Ub w.
Proof.
  assert (B : builtin (x_vm (m1 p)) (bytes_of_string "System.Object") object_ref).
  { assert (X : exists q, c_primitives (x_vm (m1 p)) = Some q /\ pt_object q = object_ref) by (destruct p; vm_compute; eauto).
    destruct X as (q & Q & X). exists q. split; [exact Q|]. rewrite <- X. cbn [In]. auto 20. }
  assert (NW : no_wrap p (len (memory (m1 p)) + 17)) by (intros _; destruct p; vm_compute; reflexivity).
  destruct (granted_ok _ _ _ _ _ (proj1 (m1_ready p)) (granted5 p)) as (_ & Ap & _). rewrite lab_vm in Ap.
  assert (Q : exists s', type_size 10 Debug object_ref demo_lab = Ok 0 s') by (vm_compute; eauto). destruct Q as (s' & Q).
  assert (WD : consistent Debug demo_lab) by apply (history_ready _ _ _ _ (demo_lab_history Debug)).
  destruct (type_size_run _ _ WD _ _ _ _ Q) as (_ & k & Sk & [_ Ck]). specialize (Ck eq_refl). subst k.
  destruct (ap_types _ _ Ap) as [l El].
  refine (proj1 (C42_reference_refuted p (m1 p) object_ref 2 (objects p) (m5 p) (m1_ready p) (granted5 p) B _ _ NW)); [reflexivity|].
  rewrite El. eapply size_appends; [exact WD|exact Sk].
Qed.
(** Use of an array of System.Int16 as one of System.Int32. *)
Definition shorts (p : profile) := got nothing (alloc_array 10 p 8%nat 2 (m1 p)).
Definition m6 (p : profile) := then_ m0 (alloc_array 10 p 8%nat 2 (m1 p)).
Example C42_other_type_ex p : array_value (m6 p) (shorts p) 8%nat (repeat (VInt I16 0) 2) /\
  match step 10 p (frame_with [x94]) (set_operands (m6 p) [VInt I32 0; VObject (shorts p)]) with
  | Err _ s' => s' = set_operands (m6 p) [] | Panic _ => True | _ => False end.
Proof.
  assert (G : granted p (m1 p) (an_array 8%nat 2) (shorts p) (m6 p)).
  { apply array_granted with (fuel := 10%nat); [reflexivity|]. unfold shorts, m6.
    refine (succeeds_ok nothing m0 (alloc_array 10 p 8%nat 2 (m1 p)) _). destruct p; vm_compute; reflexivity. }
  assert (B : builtin (x_vm (m1 p)) (bytes_of_string "System.Int16") 8%nat).
  { assert (X : exists q, c_primitives (x_vm (m1 p)) = Some q /\ pt_short q = 8%nat) by (destruct p; vm_compute; eauto).
    destruct X as (q & Q & X). exists q. split; [exact Q|]. rewrite <- X. cbn [In]. auto 20. }
  assert (V : array_value (m6 p) (shorts p) 8%nat (repeat (VInt I16 0) 2)).
  { refine (C42_new p (m1 p) 8%nat 2 (shorts p) (m6 p) _ (VInt I16 0) 2 (m1_ready p) G B eq_refl _ _);
      [apply signed_bytes; reflexivity|intros _; destruct p; vm_compute; reflexivity]. }
  split; [exact V|].
  refine (C42_other_type 10 p _ (set_operands (m6 p) [VInt I32 0; VObject (shorts p)]) (shorts p) 8%nat int_ref _ 0 []
    (granted_ready _ _ _ _ _ (m1_ready p) G) V _ _ _ (or_introl (conj (here_it_is _) eq_refl))).
  - assert (X : exists q, c_primitives (x_vm (m6 p)) = Some q /\ pt_int q = int_ref) by (destruct p; vm_compute; eauto).
    destruct X as (q & Q & X). exists q. split; [exact Q|]. rewrite <- X. unfold int_type. cbn [In]. auto 20.
  - discriminate.
  - destruct p; vm_compute; reflexivity.
Qed.
Example C42_runs p : answer (execute 100 p (lab "Get") (ints [10; 9]%Z) demo_lab) = Some (RValue (VInt I32 0)) /\
  (exists w, execute 100 p (lab "Get") (ints [10; 10]%Z) demo_lab = Panic w).
Proof. split; destruct p; vm_compute; eauto. Qed.

(** The text of the string, and after one more allocation. *)
Lemma str_value p : string_value (m3 p) (str p) greeting.
Proof.
  refine (C43_new p (m2 p) greeting (str p) (m3 p) (proj1 (m2_ready p)) (granted3 p) _). intros _. destruct p; vm_compute; reflexivity.
Qed.
Definition m7 (p : profile) := then_ m0 (alloc_string p [0x61] (m3 p)).
Example C43_ex p : string_data (str p) (m3 p) = Ok greeting (m3 p) /\ string_data (str p) (m7 p) = Ok greeting (m7 p).
Proof.
  split; [exact (C43_read _ _ _ (str_value p))|]. apply C43_read.
  assert (G : granted p (m3 p) (a_string [0x61]) (got nothing (alloc_string p [0x61] (m3 p))) (m7 p)).
  { apply string_granted; [repeat constructor|reflexivity|]. unfold m7.
    refine (succeeds_ok nothing m0 (alloc_string p [0x61] (m3 p)) _). destruct p; vm_compute; reflexivity. }
  destruct (C39_fresh _ _ _ _ _ (proj1 (m3_ready p)) G) as (_ & bs & B & A).
  refine (C43_kept p (m3 p) [(_, bs)] (m7 p) (str p) greeting (proj1 (m3_ready p))
    (SpecHeap.one_more p (m3 p) [] (m3 p) _ _ bs (m7 p) (no_more p (m3 p)) G B _) _ (str_value p)).
  - inversion B as [| |u ui text id l cs Eu Ei Lu El Cs]; subst. intros _. rewrite !len_app.
    inversion Cs as [|? c ? cs' H Cs']; subst. inversion Cs'; subst. cbn [concat]. rewrite len_app.
    unfold len at 3 4 5. rewrite (proj1 Ei), (proj1 El), (proj1 H). destruct p; vm_compute; reflexivity.
  - destruct p; vm_compute; discriminate.
Qed.
(** A write into the object before the string. *)
Example C43_apart_ex p : exists s', store (box p) 5 [x01; x02] (m3 p) = Ok tt s' /\ string_value s' (str p) greeting.
Proof.
  assert (St : exists bs, len bs = 2 /\ stored (m3 p) (box p) 5 bs).
  { exists [x00; x00]. split; [reflexivity|]. split; [destruct p; vm_compute; reflexivity|].
    exists (firstn 5 (memory (m3 p))), (skipn 7 (memory (m3 p))). destruct p; vm_compute; auto. }
  destruct St as (bs & L & St).
  destruct (store_inside (m3 p) (box p) 5 [] bs [] [x01; x02]) as (s' & E & _ & W & _); [rewrite app_nil_r; exact St|rewrite L; reflexivity|].
  exists s'. split; [exact E|]. eapply C43_apart; [exact W|apply str_value|]. right. destruct p; vm_compute; discriminate.
Qed.
(** The literal at offset 1 of the heap of user strings of the example assembly. *)
Example C43_literal_ex p : exists fr' s' o,
  step 10 p (frame_with [x72; x01; x00; x00; x70]) (m1 p) = Ok (ONext fr') s' /\
  x_operands s' = [VObject o] /\ string_value s' o [0x61].
Proof.
  destruct (step 10 p (frame_with [x72; x01; x00; x00; x70]) (m1 p)) as [out s'| | | |] eqn:E;
    try (exfalso; destruct p; vm_compute in E; discriminate E).
  destruct (C43_literal 10 p _ (m1 p) [x01; x00; x00; x70] [0x61] out s'
    (proj1 (m1_ready p)) (here_it_is _) eq_refl) as (fr' & o & -> & _ & O & F & A); [| |exact E|].
  - rewrite lab_vm. destruct lab_assembly as [ai|] eqn:Ea; [|discriminate Ea].
    assert (X : a_user_strings ai = a_user_strings match lab_assembly with Some a => a | None => ai end) by (now rewrite Ea).
    exists ai, [x00], x00, [x07; xe9; x00; x3d; xd8; x00; xde; x00; x00; x00; x00]. split; [exact (f_equal Some Ea)|].
    rewrite X. repeat split; try (vm_compute; reflexivity). repeat constructor.
  - destruct p; vm_compute; reflexivity.
  - exists fr', s', o. split; [reflexivity|]. split; [|exact A]. rewrite O. destruct p; vm_compute; reflexivity.
Qed.
Example C43_runs p : match execute 100 p (lab "Hello") [] demo_lab with Ok _ s => c_output s | _ => [] end = [97; 97; 233; 128512; 233; 128512].
Proof. destruct p; vm_compute; reflexivity. Qed.

Print Assumptions C39_fresh.
Print Assumptions C39_disjoint.
Print Assumptions C39_negative_refuted.
Print Assumptions C40_partial.
Print Assumptions C40_refuted.
Print Assumptions C41_new.
Print Assumptions C41_load.
Print Assumptions C41_store.
Print Assumptions C41_other.
Print Assumptions C41_narrow_refuted.
Print Assumptions C42_new.
Print Assumptions C42_load.
Print Assumptions C42_load_outside.
Print Assumptions C42_store.
Print Assumptions C42_store_outside.
Print Assumptions C42_exact.
Print Assumptions C42_set.
Print Assumptions C42_get.
Print Assumptions C42_newarr.
Print Assumptions C42_newarr_negative.
Print Assumptions C42_other_type.
Print Assumptions C42_reference_refuted.
Print Assumptions C43_new.
Print Assumptions C43_read.
Print Assumptions C43_kept.
Print Assumptions C43_apart.
Print Assumptions C43_literal.

(** Fields, arrays and strings on the heap. *)
From Coq Require Import NArith ZArith String List Bool Lia.
From Coq.Strings Require Import Byte.
From Verif Require Import Base BaseFacts Metadata Tables Blob Runtime Value Opcodes Gc Interp SpecExec SpecRuntime SpecTypes SpecHeap
  RuntimeInv InterpInv InterpFacts FrameFacts VmFacts StackFacts PropsDecode TypeFacts HeapFacts.
Import ListNotations.
Open Scope N_scope.

(** ** Lists *)

Lemma split_left {A} : forall (l1 l2 m1 m2 : list A), l1 ++ l2 = m1 ++ m2 -> (List.length l1 <= List.length m1)%nat ->
  exists x, m1 = l1 ++ x /\ l2 = x ++ m2.
Proof.
  induction l1 as [|a l1 IH]; intros l2 m1 m2 E L; [exists m1; auto|].
  destruct m1 as [|b m1]; [cbn in L; lia|]. cbn in E. injection E as <- E. destruct (IH _ _ _ E) as (x & -> & ->); [cbn in L; lia|].
  exists x. auto.
Qed.
Lemma split_same {A} (l1 l2 m1 m2 : list A) : l1 ++ l2 = m1 ++ m2 -> List.length l1 = List.length m1 -> l1 = m1 /\ l2 = m2.
Proof.
  intros E L. destruct (split_left _ _ _ _ E) as (x & Hx & Hy); [lia|]. subst. rewrite app_length in L.
  destruct x; [|cbn in L; lia]. now rewrite app_nil_r.
Qed.
Lemma len_nat {A} (l l' : list A) : len l <= len l' -> (List.length l <= List.length l')%nat.
Proof. unfold len. lia. Qed.

(** ** What is stored *)

Lemma stored_part s o d a b c : stored s o d (a ++ b ++ c) -> stored s o (d + len a) b.
Proof.
  intros (G & before & after & M & L). split; [exact G|]. exists (before ++ a), (c ++ after).
  rewrite M, <- !app_assoc, len_app. split; [reflexivity|lia].
Qed.
Lemma stored_first s o d a b : stored s o d (a ++ b) -> stored s o d a.
Proof. intro H. apply (stored_part s o d [] a b) in H. now rewrite N.add_0_r in H. Qed.
Lemma stored_last s o d a b : stored s o d (a ++ b) -> stored s o (d + len a) b.
Proof. intro H. rewrite <- (app_nil_r b) in H. now apply stored_part in H. Qed.
Lemma stored_unique s o d a b : stored s o d a -> stored s o d b -> len a = len b -> a = b.
Proof.
  intros (G & x & y & M & L) (_ & x' & y' & M' & L') E. rewrite M in M'. apply split_same in M' as [-> M'];
    [|apply Nat2N.inj; unfold len in *; lia]. apply split_same in M' as [-> _]; [reflexivity|]. unfold len in E. lia.
Qed.

Lemma stored_frame s o' d' b before old new after : memory s = before ++ old ++ after -> len new = len old ->
  stored s o' d' b -> o_off o' + d' + len b <= len before \/ len before + len old <= o_off o' + d' ->
  stored (with_memory s (before ++ new ++ after)) o' d' b.
Proof.
  intros M L (G & x & y & M' & L') D. split; [exact G|]. cbn [memory with_memory set_heap x_heap h_mem].
  unfold memory in *. cbn [x_heap h_mem set_heap with_memory].
  rewrite M in M'. destruct D as [D|D].
  - rewrite app_assoc in M'. symmetry in M'. rewrite (app_assoc x) in M'. symmetry in M'.
    rewrite <- app_assoc in M'. symmetry in M'. apply split_left in M' as (z & -> & ->).
    + exists x, (z ++ new ++ after). rewrite <- !app_assoc. auto.
    + rewrite app_length. unfold len in *. lia.
  - rewrite app_assoc in M'. apply split_left in M' as (z & -> & ->).
    + exists ((before ++ new) ++ z), y. rewrite <- !app_assoc. split; [reflexivity|]. rewrite <- L'. rewrite !len_app. lia.
    + rewrite app_length. unfold len in *. lia.
Qed.

(** A write to bytes that are there. *)
Lemma store_stored s o d old bs : stored s o d old -> len bs = len old ->
  exists s', store o d bs s = Ok tt s' /\ stored s' o d bs /\ only_writes s s' o d (len old) /\
    x_operands s' = x_operands s.
Proof.
  intros (G & before & after & M & L) E. exists (with_memory s (before ++ bs ++ after)).
  split; [eapply store_with; eauto|]. split.
  - split; [exact G|]. exists before, after. auto.
  - split; [|reflexivity]. unfold only_writes. do 3 (split; [reflexivity|]). split.
    + unfold memory at 1. cbn [with_memory x_heap set_heap h_mem]. rewrite M, !len_app. lia.
    + do 3 (split; [reflexivity|]). intros o' d' b S D. eapply stored_frame; eauto. rewrite L. tauto.
Qed.

Lemma stored_operands s l o d bs : stored s o d bs <-> stored (set_operands s l) o d bs.
Proof. reflexivity. Qed.

(** ** Numbers *)

Definition kind_of (v : value) : held :=
  match v with VInt t _ => HInt t | VF32 _ => HF32 | VF64 _ => HF64 | VObject _ => HObject end.

Lemma represents_bytes v bs : represents v bs ->
  held_bytes v = Some (kind_of v, bs) /\ len bs = held_size (kind_of v) /\ held_value (kind_of v) bs = Some v.
Proof.
  intro R. destruct R as [t x bs Sg L E|t x bs Sg L E|b bs E|b bs E].
  - cbn [held_bytes kind_of held_size held_value]. assert (LB : len bs = ibits t / 8) by (rewrite <- L, N.mul_comm; symmetry; apply N.div_mul; discriminate).
    rewrite number_le_dec in E. subst x. unfold int_of_bytes. rewrite Sg, <- LB. split; [|auto]. do 2 f_equal. unfold to_unsigned.
    pose proof (le_dec_bound bs) as B. replace (256 ^ len bs) with (2 ^ ibits t) in B by (rewrite <- L, N.pow_mul_r; reflexivity).
    rewrite Z.mod_small.
    + rewrite N2Z.id. unfold len. rewrite Nat2N.id. apply le_enc_dec.
    + change 2%Z with (Z.of_N 2). rewrite <- N2Z.inj_pow. lia.
  - cbn [held_bytes kind_of held_size held_value]. assert (LB : len bs = ibits t / 8) by (rewrite <- L, N.mul_comm; symmetry; apply N.div_mul; discriminate).
    assert (NE : bs <> []) by (intros ->; destruct t; discriminate).
    rewrite signed_number_le_dec in E by exact NE. subst x. unfold int_of_bytes. rewrite Sg, <- LB, L. split; [|auto]. do 2 f_equal.
    unfold to_unsigned.
    pose proof (le_dec_bound bs) as B. replace (256 ^ len bs) with (2 ^ ibits t) in B by (rewrite <- L, N.pow_mul_r; reflexivity).
    assert (X : (to_signed (ibits t) (le_dec bs) mod 2 ^ Z.of_N (ibits t) = Z.of_N (le_dec bs))%Z).
    { unfold to_signed. destruct (_ <? _).
      - apply Z.mod_small. change 2%Z with (Z.of_N 2). rewrite <- N2Z.inj_pow. lia.
      - rewrite <- (Z_mod_plus_full _ 1). rewrite Z.mul_1_l, Z.sub_add. apply Z.mod_small.
        change 2%Z with (Z.of_N 2). rewrite <- N2Z.inj_pow. lia. }
    rewrite X, N2Z.id. unfold len. rewrite Nat2N.id. apply le_enc_dec.
  - cbn [held_bytes kind_of held_size held_value]. rewrite <- (encodes_eq _ _ _ E). split; [reflexivity|]. destruct E as [L E].
    split; [unfold len; rewrite L; reflexivity|]. rewrite number_le_dec in E. apply N2Z.inj in E. now rewrite E.
  - cbn [held_bytes kind_of held_size held_value]. rewrite <- (encodes_eq _ _ _ E). split; [reflexivity|]. destruct E as [L E].
    split; [unfold len; rewrite L; reflexivity|]. rewrite number_le_dec in E. apply N2Z.inj in E. now rewrite E.
Qed.

(** ** Built-in types *)

Lemma type_eq_is t u n m s : is_named (c_types s) t n -> is_named (c_types s) u m -> type_eq t u s = Ok (bytes_eqb n m) s.
Proof. intros (ti & Et & <-) (ui & Eu & <-). unfold type_eq, bind, the_type. now rewrite Et, Eu. Qed.

Lemma started_q s : started s -> exists q, c_primitives s = Some q /\
  forall n t, In (n, t) [(bytes_of_string "System.SByte", pt_sbyte q); (bytes_of_string "System.Byte", pt_byte q);
               (bytes_of_string "System.Int16", pt_short q); (bytes_of_string "System.UInt16", pt_ushort q);
               (bytes_of_string "System.Int32", pt_int q); (bytes_of_string "System.UInt32", pt_uint q);
               (bytes_of_string "System.Int64", pt_long q); (bytes_of_string "System.UInt64", pt_ulong q);
               (bytes_of_string "System.Single", pt_float q); (bytes_of_string "System.Double", pt_double q);
               (bytes_of_string "System.Object", pt_object q)] -> is_named (c_types s) t n.
Proof.
  intros [N H]. destruct (c_primitives s) as [q|] eqn:E; [|congruence]. exists q. split; [reflexivity|]. intros n t I.
  apply H. exists q. auto.
Qed.

Lemma held_as_run s q t v n : c_primitives s = Some q -> started s -> type_name_of v = Some n -> is_named (c_types s) t n ->
  held_as primitive_order q t s = Ok (Some (kind_of v)) s.
Proof.
  intros Q S T N. destruct (started_q _ S) as (q' & Q' & H). assert (q' = q) as -> by congruence. clear Q'.
  unfold primitive_order. cbn [held_as].
  pose proof (fun X => H (bytes_of_string "System.SByte") (pt_sbyte q) X) as N1.
  pose proof (fun X => H (bytes_of_string "System.Byte") (pt_byte q) X) as N2.
  pose proof (fun X => H (bytes_of_string "System.Int16") (pt_short q) X) as N3.
  pose proof (fun X => H (bytes_of_string "System.UInt16") (pt_ushort q) X) as N4.
  pose proof (fun X => H (bytes_of_string "System.Int32") (pt_int q) X) as N5.
  pose proof (fun X => H (bytes_of_string "System.UInt32") (pt_uint q) X) as N6.
  pose proof (fun X => H (bytes_of_string "System.Int64") (pt_long q) X) as N7.
  pose proof (fun X => H (bytes_of_string "System.UInt64") (pt_ulong q) X) as N8.
  pose proof (fun X => H (bytes_of_string "System.Single") (pt_float q) X) as N9.
  pose proof (fun X => H (bytes_of_string "System.Double") (pt_double q) X) as N10.
  cbn [In] in N1, N2, N3, N4, N5, N6, N7, N8, N9, N10.
  specialize (N1 ltac:(auto 20)). specialize (N2 ltac:(auto 20)). specialize (N3 ltac:(auto 20)). specialize (N4 ltac:(auto 20)).
  specialize (N5 ltac:(auto 20)). specialize (N6 ltac:(auto 20)). specialize (N7 ltac:(auto 20)). specialize (N8 ltac:(auto 20)).
  specialize (N9 ltac:(auto 20)). specialize (N10 ltac:(auto 20)). clear H.
  Local Ltac one N := unfold bind at 1;
    match goal with |- context [type_eq _ ?u _] => match goal with X : is_named _ u _ |- _ => rewrite (type_eq_is _ _ _ _ _ N X) end end;
    match goal with |- context [bytes_eqb ?a ?b] => let r := eval vm_compute in (bytes_eqb a b) in change (bytes_eqb a b) with r end;
    cbv beta iota.
  destruct v as [[]| | |]; try discriminate T; injection T as <-; repeat (one N); reflexivity.
Qed.

Lemma builtin_id s t v n q : c_primitives s = Some q -> type_name_of v = Some n -> builtin s n t ->
  managed_type (kind_of v) q = t.
Proof.
  intros Q T (q' & Q' & I). assert (q' = q) as -> by congruence. cbn [In] in I.
  destruct v as [[]| | |]; try discriminate T; injection T as <-;
    repeat (destruct I as [I|I]; [first [exact (f_equal snd I)|apply (f_equal fst) in I; vm_compute in I; discriminate I]|]); destruct I.
Qed.

(** ** Fields *)

Lemma on_vm_stays {A} (m : M vm A) s a : m (x_vm s) = Ok a (x_vm s) -> on_vm m s = Ok a s.
Proof. intro E. unfold on_vm. rewrite E. now destruct s. Qed.

Lemma raw_object_ok s o : stored s o 0 [x00] -> raw_object o s = Ok tt s.
Proof.
  intro S. unfold raw_object, flags_of, bind. rewrite (load_stored _ _ _ 1 _ S eq_refl). reflexivity.
Qed.

Lemma get_field_ok s o f v : started (x_vm s) -> field_value s o f v -> get_field_value o f s = Ok v s.
Proof.
  intros S (H & (n & T & N) & bs & R & B). destruct (represents_bytes _ _ R) as (_ & L & V).
  unfold get_field_value, bind. rewrite raw_object_ok by exact H. destruct (started_q _ S) as (q & Q & _).
  rewrite (on_vm_stays the_primitives s q) by (unfold the_primitives; now rewrite Q).
  rewrite (on_vm_stays _ s _ (held_as_run _ _ _ _ _ Q S T N)).
  change object_header with 5. rewrite (load_stored _ _ _ _ _ B L), V. reflexivity.
Qed.

Lemma writes_keep s s' o d n o' d' bs : only_writes s s' o d n -> stored s o' d' bs ->
  o_off o' + d' + len bs <= o_off o + d \/ o_off o + d + n <= o_off o' + d' -> stored s' o' d' bs.
Proof. intros (_ & _ & _ & _ & _ & _ & _ & H). apply H. Qed.
Lemma writes_operands s s' o d n l : only_writes s s' o d n -> only_writes (set_operands s l) s' o d n.
Proof. exact (fun H => H). Qed.

Lemma set_field_ok s o f old v bs : field_value s o f old -> type_name_of v = type_name_of old -> represents v bs ->
  exists s', set_field o f v s = Ok tt s' /\ field_value s' o f v /\ only_writes s s' o (5 + f_offset f) (len bs) /\
    x_operands s' = x_operands s.
Proof.
  intros (H & (n & T & N) & ob & R & B) E Rv. destruct (represents_bytes _ _ R) as (_ & L & _).
  destruct (represents_bytes _ _ Rv) as (HB & Lv & _).
  assert (LL : len bs = len ob).
  { rewrite Lv, L. clear - E T. destruct v as [[]| | |], old as [[]| | |]; cbn in E |- *; try reflexivity; try discriminate;
      exfalso; injection E; discriminate. }
  destruct (store_stored _ _ _ _ _ B LL) as (s' & Es & St & W & O). exists s'. split.
  - unfold set_field, bind. rewrite raw_object_ok by exact H. rewrite HB. exact Es.
  - rewrite <- LL in W. split; [|auto]. split; [|split].
    + eapply writes_keep; eauto. left. change (len [x00]) with 1. lia.
    + exists n. split; [congruence|]. destruct W as (-> & _). exact N.
    + exists bs. auto.
Qed.

Lemma denotes_field_resolve p s a tok f : denotes_field s a tok f -> resolve_field p a tok s = Ok (Some f) s.
Proof.
  intros (ai & r & Ea & Hr & -> & H). unfold resolve_field, bind, the_assembly. rewrite Ea.
  destruct (token_parts 4 (r + 1)) as [T1 T2]; [easy|exact Hr|]. rewrite T1. change (4 =? table_id TField) with true. cbn match.
  unfold get_row. rewrite T2. unfold u_sub. replace (1 <=? r + 1) with true by (symmetry; apply N.leb_le; lia).
  replace (r + 1 - 1) with r by lia. unfold ret. now rewrite H.
Qed.
Lemma denotes_type_resolve p s a tok t : denotes_type s a tok t -> resolve_type p a tok s = Ok (Some t) s.
Proof.
  intros (ai & r & Ea & Hr & H). unfold resolve_type, bind, the_assembly. rewrite Ea.
  assert (G : forall A (l : list A) x, token_index tok = r + 1 -> nth_error l (N.to_nat r) = Some x ->
              get_row p l tok s = Ok (Some x) s).
  { intros A l x Hi Hx. unfold get_row. rewrite Hi. unfold u_sub.
    replace (1 <=? r + 1) with true by (symmetry; apply N.leb_le; lia).
    replace (r + 1 - 1) with r by lia. unfold ret. now rewrite Hx. }
  destruct H as [[-> H]|[-> H]].
  - destruct (token_parts 2 (r + 1)) as [T1 T2]; [easy|exact Hr|]. rewrite T1. change (2 =? table_id TTypeDef) with true. cbn match. eauto.
  - destruct (token_parts 1 (r + 1)) as [T1 T2]; [easy|exact Hr|]. rewrite T1.
    change (1 =? table_id TTypeDef) with false. change (1 =? table_id TTypeRef) with true. cbn match. eauto.
Qed.

(** Fetching the token of an instruction. *)
Lemma field_token {A} p fr s b bs f (k : field_info -> frame -> M machine A) :
  code_here fr (b :: bs) -> List.length bs = 4%nat -> denotes_field (x_vm s) (fr_assembly fr) (Z.to_N (number bs)) f ->
  (' (tok, fr0) <- il_get (set_ip fr (fr_ip fr + 1)) 4 ;; o <- on_vm (resolve_field p (fr_assembly fr0) tok) ;;
   f0 <- unwrap o ;; k f0 fr0) s = k f (set_ip fr (fr_ip fr + 5)) s.
Proof.
  intros C L D. rewrite number_le_dec, N2Z.id in D. pose proof (code_here_drop fr [b] bs C) as C'. change (len [b]) with 1 in C'.
  rewrite (fetched _ _ bs _ s C') by (unfold len; rewrite L; reflexivity). cbv beta iota. cbn [fr_ip set_ip fr_assembly].
  unfold bind at 1. rewrite (on_vm_stays _ s _ (denotes_field_resolve p _ _ _ _ D)).
  unfold bind at 1. cbn [unwrap]. unfold ret at 1. replace (fr_ip fr + 1 + 4) with (fr_ip fr + 5) by lia. reflexivity.
Qed.
Lemma type_token {A} p fr s b bs t (k : tref -> frame -> M machine A) :
  code_here fr (b :: bs) -> List.length bs = 4%nat -> denotes_type (x_vm s) (fr_assembly fr) (Z.to_N (number bs)) t ->
  (' (tok, fr0) <- il_get (set_ip fr (fr_ip fr + 1)) 4 ;; o <- on_vm (resolve_type p (fr_assembly fr0) tok) ;;
   t0 <- unwrap o ;; k t0 fr0) s = k t (set_ip fr (fr_ip fr + 5)) s.
Proof.
  intros C L D. rewrite number_le_dec, N2Z.id in D. pose proof (code_here_drop fr [b] bs C) as C'. change (len [b]) with 1 in C'.
  rewrite (fetched _ _ bs _ s C') by (unfold len; rewrite L; reflexivity). cbv beta iota. cbn [fr_ip set_ip fr_assembly].
  unfold bind at 1. rewrite (on_vm_stays _ s _ (denotes_type_resolve p _ _ _ _ D)).
  unfold bind at 1. cbn [unwrap]. unfold ret at 1. replace (fr_ip fr + 1 + 4) with (fr_ip fr + 5) by lia. reflexivity.
Qed.

Lemma step_ldfld fuel p fr s bs f o v rest : code_here fr (x7b :: bs) -> List.length bs = 4%nat ->
  denotes_field (x_vm s) (fr_assembly fr) (Z.to_N (number bs)) f -> x_operands s = VObject o :: rest ->
  step fuel p fr s = (v <- get_field_value o f ;; push v ;;; next (set_ip fr (fr_ip fr + 5))) (set_operands s rest) /\
  (started (x_vm s) -> field_value s o f v -> continues fr s 5 (v :: rest) (step fuel p fr s)).
Proof.
  intros C L D O.
  assert (E : step fuel p fr s = (v <- get_field_value o f ;; push v ;;; next (set_ip fr (fr_ip fr + 5))) (set_operands s rest)).
  { pose proof C as C1. apply (code_here_prefix fr [x7b] bs) in C1. step_at C1. unfold ldfld.
    etransitivity; [exact (field_token p fr s x7b bs f (fun f0 fr0 => o <- pop ;; match o with
      | VObject o => v <- get_field_value o f0 ;; push v ;;; next fr0 | _ => fail "Cannot load field from" end) C L D)|].
    unfold bind at 1. rewrite (pop_run _ _ _ O). reflexivity. }
  split; [exact E|]. intros S F. rewrite E. unfold bind at 1. rewrite (get_field_ok (set_operands s rest) o f v S F).
  eexists _, _. split; [reflexivity|]. split; [unfold frame_at; cbn; auto 10|]. unfold operands_become. cbn. auto 10.
Qed.

Lemma step_stfld fuel p fr s bs f o v rest : code_here fr (x7d :: bs) -> List.length bs = 4%nat ->
  denotes_field (x_vm s) (fr_assembly fr) (Z.to_N (number bs)) f -> x_operands s = v :: VObject o :: rest ->
  step fuel p fr s = (set_field o f v ;;; next (set_ip fr (fr_ip fr + 5))) (set_operands s rest).
Proof.
  intros C L D O. pose proof C as C1. apply (code_here_prefix fr [x7d] bs) in C1. step_at C1. unfold stfld.
  etransitivity; [exact (field_token p fr s x7d bs f (fun f0 fr0 => v <- pop ;; o <- pop ;; match o with
      | VObject o => set_field o f0 v ;;; next fr0 | _ => fail "Cannot store field in" end) C L D)|].
  unfold bind at 1. rewrite (pop_run _ _ _ O). unfold bind at 1. rewrite (pop_run (set_operands s (VObject o :: rest)) (VObject o) rest eq_refl). reflexivity.
Qed.

(** ** Arrays *)

Lemma store_inside s o d a old c bs : stored s o d (a ++ old ++ c) -> len bs = len old ->
  exists s', store o (d + len a) bs s = Ok tt s' /\ stored s' o d (a ++ bs ++ c) /\
    only_writes s s' o (d + len a) (len bs) /\ x_operands s' = x_operands s.
Proof.
  intros (G & before & after & M & L) E. exists (with_memory s ((before ++ a) ++ bs ++ c ++ after)).
  assert (M' : memory s = (before ++ a) ++ old ++ c ++ after) by (rewrite M, <- !app_assoc; reflexivity).
  split; [eapply store_with; eauto; rewrite len_app; lia|]. split.
  - split; [exact G|]. exists before, after. split; [|exact L]. unfold memory. cbn [with_memory x_heap set_heap h_mem].
    rewrite <- !app_assoc. reflexivity.
  - split; [|reflexivity]. unfold only_writes. do 3 (split; [reflexivity|]). split.
    + unfold memory at 1. cbn [with_memory x_heap set_heap h_mem]. rewrite M', !len_app. lia.
    + do 3 (split; [reflexivity|]). intros o' d' b S D. eapply stored_frame; eauto. rewrite len_app, L. lia.
Qed.

Lemma len_concat k : forall bss : list (list byte), Forall (fun b => len b = k) bss -> len (concat bss) = len bss * k.
Proof. induction 1 as [|b bss H _ IH]; [reflexivity|]. cbn [concat]. rewrite len_app, len_cons, H, IH. lia. Qed.

Lemma nth_concat k : forall (bss : list (list byte)) i b, Forall (fun b => len b = k) bss -> nth_error bss i = Some b ->
  concat bss = concat (firstn i bss) ++ b ++ concat (skipn (S i) bss) /\ len (concat (firstn i bss)) = N.of_nat i * k.
Proof.
  intros bss i b F E. apply nth_error_split in E as (l1 & l2 & -> & <-).
  rewrite firstn_app, Nat.sub_diag, firstn_all. cbn [firstn]. rewrite app_nil_r.
  replace (skipn (S (List.length l1)) (l1 ++ b :: l2)) with l2.
  - split; [rewrite concat_app; reflexivity|]. apply Forall_app in F as [F _]. now apply len_concat.
  - rewrite skipn_app. replace (S (List.length l1) - List.length l1)%nat with 1%nat by lia.
    rewrite skipn_all2 by lia. reflexivity.
Qed.

Lemma forall2_nth {A B} (R : A -> B -> Prop) l l' i a : Forall2 R l l' -> nth_error l i = Some a ->
  exists b, nth_error l' i = Some b /\ R a b.
Proof.
  intro H. revert i. induction H as [|x y l l' Hxy H IH]; intros [|i] E; try discriminate; cbn in E.
  - injection E as <-. exists y. auto.
  - exact (IH i E).
Qed.
Lemma forall2_len {A B} (R : A -> B -> Prop) l l' : Forall2 R l l' -> len l = len l'.
Proof. induction 1; [reflexivity|]. now rewrite !len_cons, IHForall2. Qed.
Lemma forall2_update {A B} (R : A -> B -> Prop) l l' i a b : Forall2 R l l' -> R a b -> Forall2 R (update l i a) (update l' i b).
Proof.
  intros H Hab. unfold update. apply Forall2_app.
  - revert i. induction H; intros [|i]; cbn; constructor; auto.
  - constructor; [exact Hab|]. generalize (S i). induction H; intros [|j]; cbn; auto.
Qed.
Lemma update_length {A} (l : list A) i x : (i < List.length l)%nat -> List.length (update l i x) = List.length l.
Proof. intro L. unfold update. rewrite app_length, firstn_length. cbn [List.length]. rewrite skipn_length. lia. Qed.

(** The parts of an array whose elements have the type of [v]. *)
Lemma array_parts s o t vs v n : started (x_vm s) -> array_value s o t vs -> type_name_of v = Some n -> builtin (x_vm s) n t ->
  Forall (fun x => type_name_of x = Some n) vs ->
  exists hd bss, len hd = 17 /\ stored s o 0 (hd ++ concat bss) /\ Forall2 represents vs bss /\
    Forall (fun b => len b = held_size (kind_of v)) bss /\
    load o 9 8 s = Ok (le_enc 8 (len vs)) s /\ le_dec (le_enc 8 (len vs)) = len vs /\
    load o 0 1 s = Ok [x02] s /\
    array_slice o (kind_of v) s = Ok (Some (len vs)) s /\
    (forall q bss' s', Forall2 represents q bss' -> len q = len vs -> x_vm s' = x_vm s ->
        stored s' o 0 (hd ++ concat bss') -> array_value s' o t q).
Proof.
  intros S (id & ti & eid & l & bss & Lid & Et & Ee & El & R & St) T B F. exists ([x02] ++ id ++ eid ++ l), bss.
  assert (K : Forall (fun b => len b = held_size (kind_of v)) bss).
  { clear - R F T. revert F. induction R as [|x b vs bss Hx R IH]; intro F; constructor; inversion F as [|? ? Tx F']; subst; auto.
    destruct (represents_bytes _ _ Hx) as (_ & -> & _). clear - T Tx. rewrite <- T in Tx.
    destruct v as [[]| | |], x as [[]| | |]; cbn in Tx |- *; try reflexivity; try discriminate; exfalso; injection Tx; discriminate. }
  assert (Li : len id = 4) by (unfold len; rewrite Lid; reflexivity).
  assert (Le : len eid = 4) by (unfold len; rewrite (proj1 Ee); reflexivity).
  assert (Ll : len l = 8) by (unfold len; rewrite (proj1 El); reflexivity).
  assert (LH : len ([x02] ++ id ++ eid ++ l) = 17) by (rewrite !len_app, Li, Le, Ll; reflexivity).
  split; [exact LH|]. rewrite <- !app_assoc. split; [exact St|]. split; [exact R|]. split; [exact K|].
  assert (Dl : l = le_enc 8 (len vs)) by (now apply encodes_eq). assert (De : le_dec eid = ti_id ti).
  { destruct Ee as [_ Ee]. rewrite number_le_dec in Ee. now apply N2Z.inj in Ee. }
  assert (DD : le_dec l = len vs). { destruct El as [_ El]. rewrite number_le_dec in El. now apply N2Z.inj in El. }
  assert (L9 : load o 9 8 s = Ok l s).
  { apply load_stored; [|exact Ll]. replace 9 with (0 + len ([x02] ++ id ++ eid)) by (rewrite !len_app, Li, Le; reflexivity).
    apply stored_part with (c := concat bss). rewrite <- !app_assoc. exact St. }
  rewrite <- Dl. split; [exact L9|]. split; [exact DD|]. split.
  { apply load_stored; [|reflexivity]. apply stored_first with (b := id ++ eid ++ l ++ concat bss). exact St. }
  split.
  - unfold array_slice. destruct (started_q _ S) as (q & Q & _). unfold bind at 1.
    rewrite (on_vm_stays the_primitives s q) by (unfold the_primitives; now rewrite Q).
    rewrite (builtin_id _ _ _ _ _ Q T B). unfold bind at 1.
    rewrite (on_vm_stays (id_of t) s (ti_id ti)) by (unfold id_of, bind, the_type; now rewrite Et).
    unfold bind at 1. rewrite (load_stored s o 5 4 eid);
      [|replace 5 with (0 + len ([x02] ++ id)) by (rewrite !len_app, Li; reflexivity);
        apply stored_part with (c := l ++ concat bss); rewrite <- !app_assoc; exact St|exact Le].
    rewrite De, N.eqb_refl. unfold bind at 1. rewrite L9, DD. unfold bind at 1.
    rewrite (load_stored s o array_header _ (concat bss)).
    + reflexivity.
    + unfold array_header. rewrite <- LH. rewrite <- (N.add_0_l (len _)). apply stored_last. rewrite <- !app_assoc. exact St.
    + rewrite (len_concat _ _ K), <- (forall2_len _ _ _ R). reflexivity.
  - intros q bss' s' Rq Lq V St'. exists id, ti, eid, l, bss'. rewrite V, Lq. split; [exact Lid|]. split; [exact Et|]. split; [exact Ee|].
    split; [exact El|]. split; [exact Rq|]. rewrite <- !app_assoc in St'. exact St'.
Qed.

(** Writing and reading one element. *)
Lemma element_set s o t vs v n i bs : started (x_vm s) -> array_value s o t vs -> type_name_of v = Some n -> builtin (x_vm s) n t ->
  Forall (fun x => type_name_of x = Some n) vs -> i < len vs -> represents v bs ->
  exists s', store o (array_header + i * held_size (kind_of v)) bs s = Ok tt s' /\
    array_value s' o t (update vs (N.to_nat i) v) /\
    only_writes s s' o (array_header + i * held_size (kind_of v)) (held_size (kind_of v)) /\ x_operands s' = x_operands s.
Proof.
  intros S A T B F I R. destruct (array_parts _ _ _ _ _ _ S A T B F) as (hd & bss & LH & St & Rs & K & _ & _ & _ & _ & Back).
  destruct (nth_error vs (N.to_nat i)) as [x|] eqn:Ex; [|apply nth_error_None in Ex; unfold len in I; lia].
  destruct (forall2_nth _ _ _ _ _ Rs Ex) as (old & Eo & Ro). destruct (nth_concat _ _ _ _ K Eo) as [EC LC].
  rewrite N2Nat.id in LC. rewrite EC, app_assoc in St.
  destruct (represents_bytes _ _ R) as (_ & Lb & _).
  assert (LO : len old = held_size (kind_of v)) by (rewrite Forall_forall in K; apply K; eapply nth_error_In; eauto).
  destruct (store_inside _ _ _ _ _ _ bs St) as (s' & E & St' & W & O); [congruence|].
  rewrite N.add_0_l, len_app, LH, LC in E, W. rewrite Lb in W. exists s'. split; [exact E|]. split; [|auto].
  apply (Back _ (update bss (N.to_nat i) bs)).
  - now apply forall2_update.
  - unfold len in *. rewrite update_length by lia. reflexivity.
  - apply W.
  - unfold update. rewrite concat_app. cbn [concat]. rewrite <- app_assoc in St'. exact St'.
Qed.
Lemma element_get s o t vs v n i : started (x_vm s) -> array_value s o t vs -> type_name_of v = Some n -> builtin (x_vm s) n t ->
  Forall (fun x => type_name_of x = Some n) vs -> nth_error vs (N.to_nat i) = Some v ->
  exists bs, slice_get o (kind_of v) (len vs) i s = Ok bs s /\ represents v bs.
Proof.
  intros S A T B F Ev. destruct (array_parts _ _ _ _ _ _ S A T B F) as (hd & bss & LH & St & Rs & K & _).
  destruct (forall2_nth _ _ _ _ _ Rs Ev) as (bs & Eb & Rb). destruct (nth_concat _ _ _ _ K Eb) as [EC LC].
  rewrite N2Nat.id in LC. rewrite EC, app_assoc in St. exists bs. split; [|exact Rb]. unfold slice_get.
  assert (I : i < len vs) by (assert ((N.to_nat i < List.length vs)%nat) by (apply nth_error_Some; congruence); unfold len; lia).
  apply N.ltb_lt in I. rewrite I. apply load_stored.
  - replace (array_header + i * held_size (kind_of v)) with (0 + len (hd ++ concat (firstn (N.to_nat i) bss)))
      by (rewrite len_app, LH, LC; reflexivity). eapply stored_part. exact St.
  - rewrite Forall_forall in K. apply K. eapply nth_error_In; eauto.
Qed.

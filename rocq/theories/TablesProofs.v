(** Lemmas for C22-C27. *)
From Coq Require Import NArith String List Bool Lia.
From Coq.Strings Require Import Byte.
From Verif Require Import Base BinaryReader ParseSpec BaseFacts ReaderFacts
  Attributes SpecAttributes AttributesProofs Tables SpecTables TablesApi.
Import ListNotations.
Open Scope N_scope.

(** ** Widths *)

(** The reader's widths are those of ECMA-335. *)
Record env_matches (E : tenv) (sz : sizes) : Prop := {
  em_string : wide_string E = big_strings sz;
  em_guid : wide_guid E = big_guids sz;
  em_blob : wide_blob E = big_blobs sz;
  em_index : forall t, at_table false (wide_table_handles E) t = negb (rows sz t <? 2 ^ 16);
  em_coded : forall k,
    kind_wide k E = negb (forallb (fun tt => rows sz (snd tt) <? 2 ^ (16 - coded_bits k)) (coded_tags k)) }.

Lemma parses_attr {A B} (o : option A) a (k : A -> M reader B) bs b :
  o = Some a -> parses (k a) bs b -> parses (x <- attr o ;; k x) bs b.
Proof. intros -> H. exact H. Qed.

Lemma parses_skip {B} p n bs1 (k : M reader B) bs2 b :
  len bs1 = n -> parses k bs2 b -> parses (advance p n ;;; k) (bs1 ++ bs2) b.
Proof.
  intros L H pre rest Hs. unfold bind.
  assert (Hb : len pre + n < 2 ^ 64).
  { unfold slice_ok in Hs. rewrite !len_app in Hs. rewrite pow63 in Hs. rewrite pow64. lia. }
  rewrite advance_ok by exact Hb. cbn [rdata rpos].
  specialize (H (pre ++ bs1) rest). rewrite <- !app_assoc in *. specialize (H Hs).
  rewrite !len_app in *. rewrite L in *. rewrite H. f_equal. f_equal. lia.
Qed.

Lemma parses_index p (wide : bool) v w : w = (if wide then 4 else 2) -> v < 256 ^ w ->
  parses (read_index p wide) (le_enc (N.to_nat w) v) v.
Proof. intros -> H. unfold read_index. destruct wide; apply parses_rd; exact H. Qed.

Lemma parses_int sz p w v b : column_bytes sz (CInt w v) b -> parses (rd p w eof) b v.
Proof. intros (x & Hv & Hb & ->). cbn [column_value column_width] in *. subst x. apply parses_rd; exact Hb. Qed.

Lemma parses_int_read sz p w v b : column_bytes sz (CInt w v) b -> parses (read p w) b (Some b).
Proof.
  intros (x & Hv & Hb & ->). cbn [column_value column_width] in *. apply parses_read.
  rewrite len_le_enc. apply N2Nat.id.
Qed.

Lemma int_len sz w v b : column_bytes sz (CInt w v) b -> len b = w.
Proof. intros (x & Hv & Hb & ->). cbn [column_width]. rewrite len_le_enc. apply N2Nat.id. Qed.

Lemma parses_string E sz p v b : env_matches E sz ->
  column_bytes sz (CString v) b -> parses (read_string_handle p E) b v.
Proof.
  intros H (x & Hv & Hb & ->). cbn [column_value column_width] in *. subst x.
  apply parses_index; [|exact Hb]. rewrite (em_string _ _ H). reflexivity.
Qed.
Lemma parses_guid E sz p v b : env_matches E sz ->
  column_bytes sz (CGuid v) b -> parses (read_guid_handle p E) b v.
Proof.
  intros H (x & Hv & Hb & ->). cbn [column_value column_width] in *. subst x.
  apply parses_index; [|exact Hb]. rewrite (em_guid _ _ H). reflexivity.
Qed.
Lemma parses_blob E sz p v b : env_matches E sz ->
  column_bytes sz (CBlob v) b -> parses (read_blob_handle p E) b v.
Proof.
  intros H (x & Hv & Hb & ->). cbn [column_value column_width] in *. subst x.
  apply parses_index; [|exact Hb]. rewrite (em_blob _ _ H). reflexivity.
Qed.

Lemma parses_row_index E sz p t v b m : env_matches E sz -> index_reader t p E = Some m ->
  column_bytes sz (CRow t v) b -> parses m b v.
Proof.
  intros H Hm (x & Hv & Hb & ->). cbn [column_value column_width] in *. subst x.
  assert (m = read_index p (at_table false (wide_table_handles E) t)) as ->.
  { destruct t; try discriminate Hm; injection Hm as <-; reflexivity. }
  apply parses_index; [|exact Hb]. rewrite (em_index _ _ H). unfold index_width.
  destruct (rows sz t <? 2 ^ 16); reflexivity.
Qed.

(** ** Coded indexes *)

Lemma split_tag k i tag : tag < 2 ^ k ->
  N.land (i * 2 ^ k + tag) (N.ones k) = tag /\
  N.shiftr (N.ldiff (i * 2 ^ k + tag) (N.ones k)) k = i.
Proof.
  intro H. assert (2 ^ k <> 0) by (apply N.pow_nonzero; lia). split.
  - rewrite N.land_ones, N.add_comm, N.mod_add by assumption. apply N.mod_small; exact H.
  - rewrite N.ldiff_ones_r, N.shiftr_shiftl_l, N.sub_diag, N.shiftl_0_r by lia.
    rewrite N.shiftr_div_pow2, N.add_comm, N.div_add by assumption.
    rewrite N.div_small by exact H. lia.
Qed.

Definition kind_tag (k : coded) : N -> option table :=
  match k with
  | KTypeDefOrRef => tag_type_def_or_ref
  | KHasConstant => tag_has_constant
  | KHasCustomAttribute => tag_has_custom_attribute
  | KHasFieldMarshal => tag_has_field_marshal
  | KHasDeclSecurity => tag_has_decl_security
  | KMemberRefParent => tag_member_ref_parent
  | KHasSemantics => tag_has_semantics
  | KMethodDefOrRef => tag_method_def_or_ref
  | KMemberForwarded => tag_member_forwarded
  | KImplementation => tag_implementation
  | KCustomAttributeType => tag_custom_attribute_type
  | KResolutionScope => tag_resolution_scope
  | KTypeOrMethodDef => tag_type_or_method_def
  end.

Lemma kind_popcount k : popcount5 (N.ones (coded_bits k)) = coded_bits k.
Proof. destruct k; reflexivity. Qed.

Lemma kind_tag_in k tag t : In (tag, t) (coded_tags k) -> tag < 2 ^ coded_bits k /\
  (kind_tag k tag = Some t \/ (k = KHasCustomAttribute /\ t = TDeclSecurity)).
Proof.
  destruct k; cbn [coded_tags In kind_tag]; intro H;
    repeat (destruct H as [H|H];
            [injection H as <- <-; split; [reflexivity|first [left; reflexivity|right; split; reflexivity]]|]);
    destruct H.
Qed.

Lemma kind_tag_out k tag t : kind_tag k tag = Some t -> In (tag, t) (coded_tags k).
Proof.
  intro H. destruct tag as [|q].
  - destruct k; cbn in H; try discriminate H; injection H as <-; cbn; tauto.
  - destruct q as [[[[[?|?|]|[?|?|]|]|[[?|?|]|[?|?|]|]|]|[[[?|?|]|[?|?|]|]|[[?|?|]|[?|?|]|]|]|]
                  |[[[[?|?|]|[?|?|]|]|[[?|?|]|[?|?|]|]|]|[[[?|?|]|[?|?|]|]|[[?|?|]|[?|?|]|]|]|]|];
      destruct k; cbn in H; try discriminate H; injection H as <-; cbn; tauto.
Qed.

Lemma coded_reader_eq k p E :
  exists e, coded_reader k p E = read_coded p (kind_wide k E) (N.ones (coded_bits k)) (kind_tag k) e.
Proof. destruct k; cbn [coded_reader]; eexists; reflexivity. Qed.

Lemma parses_coded_value E p k r tag : In (tag, ref_table r) (coded_tags k) ->
  supported (CCoded k (ref_table r) (ref_index r)) ->
  forall w v, w = (if kind_wide k E then 4 else 2) -> v = ref_index r * 2 ^ coded_bits k + tag ->
  v < 256 ^ w -> parses (coded_reader k p E) (le_enc (N.to_nat w) v) r.
Proof.
  intros Hin Hsup w v -> -> Hb.
  destruct (coded_reader_eq k p E) as (e & ->).
  destruct (kind_tag_in _ _ _ Hin) as [Hlt Hfs].
  assert (Hft : kind_tag k tag = Some (ref_table r)).
  { destruct Hfs as [Hfs|[-> Ht]]; [exact Hfs|]. exfalso. rewrite Ht in Hsup. exact Hsup. }
  clear Hfs Hin. unfold read_coded.
  rewrite <- (app_nil_r (le_enc _ _)). eapply parses_bind.
  - apply parses_index; [reflexivity|exact Hb].
  - rewrite kind_popcount. destruct (split_tag (coded_bits k) (ref_index r) tag Hlt) as [-> ->].
    rewrite Hft. destruct r. apply parses_ret.
Qed.

Lemma parses_coded E sz p k r b : env_matches E sz ->
  supported (CCoded k (ref_table r) (ref_index r)) ->
  column_bytes sz (CCoded k (ref_table r) (ref_index r)) b ->
  parses (coded_reader k p E) b r.
Proof.
  intros H Hsup (v & (tag & Hin & Hv) & Hb & ->).
  eapply parses_coded_value; [exact Hin|exact Hsup| |exact Hv|exact Hb].
  cbn [column_width]. unfold coded_width. rewrite (em_coded _ _ H).
  destruct (forallb _ _); reflexivity.
Qed.

(** The cursor moves by the width, whatever is read. *)
Lemma read_index_inv p wide r v r' : read_index p wide r = Ok v r' ->
  in_bounds r -> rpos r' = rpos r + (if wide then 4 else 2).
Proof.
  intros H [Hs Hp]. unfold slice_ok in Hs. unfold read_index in H.
  destruct wide; apply rd_ok_inv in H as (_ & _ & ->); try reflexivity; try exact Hs;
    rewrite pow63 in Hs; rewrite pow64; lia.
Qed.

Lemma coded_reader_width k p E r v r' : in_bounds r -> coded_reader k p E r = Ok v r' ->
  rpos r' = rpos r + (if kind_wide k E then 4 else 2).
Proof.
  intros Hs H. destruct (coded_reader_eq k p E) as (e & Heq). rewrite Heq in H. unfold read_coded in H.
  apply bind_inv_ok in H as (d & r1 & H1 & H2). apply read_index_inv in H1; [|exact Hs].
  destruct (kind_tag _ _); [|discriminate H2]. injection H2 as _ <-. exact H1.
Qed.

Lemma coded_reader_unassigned k p E w v : w = (if kind_wide k E then 4 else 2) -> v < 256 ^ w ->
  (forall t, ~ In (v mod 2 ^ coded_bits k, t) (coded_tags k)) ->
  forall pre rest, slice_ok (pre ++ le_enc (N.to_nat w) v ++ rest) ->
  exists e r, coded_reader k p E (mkReader (pre ++ le_enc (N.to_nat w) v ++ rest) (len pre)) = Err e r.
Proof.
  intros Hw Hv Hno pre rest Hs. destruct (coded_reader_eq k p E) as (e & ->).
  unfold read_coded, bind. rewrite (parses_index p (kind_wide k E) v w Hw Hv pre rest Hs).
  rewrite N.land_ones. destruct (kind_tag k (v mod 2 ^ coded_bits k)) as [t|] eqn:Ek.
  - exfalso. exact (Hno t (kind_tag_out _ _ _ Ek)).
  - eexists; eexists; reflexivity.
Qed.

(** ** Rows *)

Ltac inv_cols H :=
  match type of H with
  | columns_bytes _ [] _ => inversion H; subst; clear H
  | columns_bytes _ (_ :: _) _ =>
      let b := fresh "b" in let bs := fresh "bs" in
      let H1 := fresh "C" in let H2 := fresh "Q" in
      inversion H as [|? ? b bs H1 H2]; subst; clear H; inv_cols H2
  end.
Ltac inv_sup H :=
  match type of H with
  | Forall _ [] => clear H
  | Forall _ (_ :: _) =>
      let H1 := fresh "S" in let H2 := fresh "Q" in
      inversion H as [|? ? H1 H2]; subst; clear H; inv_sup H2
  end.

Lemma nonzero_spec w o : optional_size w o -> nonzero w = o.
Proof.
  unfold nonzero. destruct o as [x|]; cbn.
  - intros [-> H]. apply N.eqb_neq in H. rewrite H. reflexivity.
  - intros ->. reflexivity.
Qed.

Lemma parses_ret_eq {A} (a b : A) : a = b -> parses (ret a) [] b.
Proof. intros ->. apply parses_ret. Qed.

Ltac col M :=
  match goal with
  | C : column_bytes ?sz (CInt ?w ?v) ?b |- parses (rd _ _ _) ?b _ => exact (parses_int sz _ w v b C)
  | C : column_bytes ?sz (CInt ?w ?v) ?b |- parses (read _ _) ?b _ => exact (parses_int_read sz _ w v b C)
  | C : column_bytes _ (CString ?v) ?b |- parses _ ?b _ => exact (parses_string _ _ _ v b M C)
  | C : column_bytes _ (CGuid ?v) ?b |- parses _ ?b _ => exact (parses_guid _ _ _ v b M C)
  | C : column_bytes _ (CBlob ?v) ?b |- parses _ ?b _ => exact (parses_blob _ _ _ v b M C)
  | C : column_bytes _ (CRow ?t ?v) ?b |- parses ?m ?b _ =>
      exact (parses_row_index _ _ _ t v b m M eq_refl C)
  | C : column_bytes _ (CCoded ?k _ _) ?b, S : supported (CCoded ?k _ _) |- parses _ ?b _ =>
      exact (parses_coded _ _ _ k _ b M S C)
  end.
Ltac attribute :=
  first [ eapply type_attributes_spec; eassumption
        | eapply field_attributes_spec; eassumption
        | eapply method_impl_attributes_spec; eassumption
        | eapply method_attributes_spec; eassumption
        | eapply pinvoke_attributes_spec; eassumption
        | eapply generic_param_attributes_spec; eassumption
        | eapply hash_algorithm_spec; reflexivity
        | eapply method_semantics_spec; reflexivity
        | eapply constant_type_spec; reflexivity ].
Ltac field_eq :=
  first [ reflexivity
        | eapply param_attributes_spec; eassumption
        | eapply event_attributes_spec; eassumption
        | eapply property_attributes_spec; eassumption
        | eapply assembly_flags_spec; eassumption
        | eapply nonzero_spec; eassumption
        | match goal with |- _ = ?b => is_var b; destruct b; reflexivity end ].
Ltac row_step M :=
  match goal with
  | |- parses (ret _) _ _ => apply parses_ret_eq; f_equal; field_eq
  | |- parses (bind (attr _) _) _ _ => eapply parses_attr; [attribute|]
  | |- parses (bind (advance _ _) _) _ _ => eapply parses_skip; [eapply int_len; eassumption|]
  | |- parses (bind _ _) _ _ => eapply parses_bind; [col M|]
  end.

Lemma parses_row E sz p r cs bs : env_matches E sz ->
  row_columns r cs -> Forall supported cs -> columns_bytes sz cs bs ->
  parses (row_reader (row_table r) p E) bs r.
Proof.
  intros M H Hs Hb. rewrite <- (app_nil_r bs).
  destruct H; cbn [row_table row_reader]; inv_cols Hb; inv_sup Hs;
    (eapply parses_bind; [|apply parses_ret]);
    match goal with |- parses (?f _ _) _ _ => unfold f end;
    repeat row_step M.
Qed.
(** ** The widths computed from the header *)

Lemma ecma_complete t : In (table_id t, t) ecma_tables.
Proof. destruct t; cbn; repeat first [left; reflexivity|right]. Qed.

Definition counts_match (counts : list N) (sz : sizes) : Prop :=
  forall t, at_table 0 counts t = rows sz t.

Lemma counts_in_match counts sz : counts_in counts (rows sz) -> counts_match counts sz.
Proof. intros H t. exact (H _ _ (ecma_complete t)). Qed.

Definition kind_tables (k : coded) : list table :=
  match k with
  | KTypeDefOrRef => tables_type_def_or_ref
  | KHasConstant => tables_has_constant
  | KHasCustomAttribute => tables_has_custom_attribute
  | KHasFieldMarshal => tables_has_field_marshal
  | KHasDeclSecurity => tables_has_decl_security
  | KMemberRefParent => tables_member_ref_parent
  | KHasSemantics => tables_has_semantics
  | KMethodDefOrRef => tables_method_def_or_ref
  | KMemberForwarded => tables_member_forwarded
  | KImplementation => tables_implementation
  | KCustomAttributeType => tables_custom_attribute_type
  | KResolutionScope => tables_resolution_scope
  | KTypeOrMethodDef => tables_type_or_method_def
  end.

Lemma kind_wide_make flags counts k :
  kind_wide k (make_env flags counts) =
  existsb (fun t => 2 ^ (16 - coded_bits k) <? at_table 0 counts t) (kind_tables k).
Proof. destruct k; reflexivity. Qed.

Definition table_eqb (a b : table) : bool := table_id a =? table_id b.
Lemma table_id_inj a b : table_id a = table_id b -> a = b.
Proof. destruct a; intro H; destruct b; try reflexivity; discriminate H. Qed.

Lemma kind_tables_spec k t : In t (kind_tables k) <-> counted k t.
Proof.
  unfold counted. split.
  - intro H. split.
    + destruct k; cbn [kind_tables] in H; cbn [coded_tags];
        match type of H with In _ ?l => unfold l in H end; cbn [In] in H;
        repeat (destruct H as [<-|H]; [eexists; cbn [In]; tauto|]); destruct H.
    + intros [-> ->]. cbn in H. repeat (destruct H as [H|H]; [discriminate H|]). exact H.
  - intros [[tag H] Hn].
    destruct k; cbn [kind_tables]; cbn [coded_tags In] in H;
      repeat (destruct H as [H|H];
        [injection H as <- <-; first [exfalso; apply Hn; split; reflexivity
                                     |cbv; tauto]|]); destruct H.
Qed.

Lemma kind_wide_iff flags counts sz k : counts_match counts sz ->
  kind_wide k (make_env flags counts) = true <->
  exists t, counted k t /\ 2 ^ (16 - coded_bits k) < rows sz t.
Proof.
  intro Hc. rewrite kind_wide_make, existsb_exists. split.
  - intros (t & Hin & H). exists t. rewrite <- kind_tables_spec, <- Hc. apply N.ltb_lt in H. tauto.
  - intros (t & Hin & H). exists t. rewrite kind_tables_spec, Hc. apply N.ltb_lt in H. tauto.
Qed.

Lemma settled_width flags counts sz k : counts_match counts sz -> settled (rows sz) k ->
  kind_wide k (make_env flags counts) =
  negb (forallb (fun tt => rows sz (snd tt) <? 2 ^ (16 - coded_bits k)) (coded_tags k)).
Proof.
  intros Hc Hs. pose proof (kind_wide_iff flags counts sz k Hc) as Hi. destruct Hs as [Hs|Hs].
  - assert (F : forallb (fun tt => rows sz (snd tt) <? 2 ^ (16 - coded_bits k)) (coded_tags k) = true).
    { apply forallb_forall. intros [tag t] Hin. apply N.ltb_lt. exact (Hs _ _ Hin). }
    rewrite F. destruct (kind_wide _ _); [|reflexivity].
    destruct Hi as [Hi _]. destruct (Hi eq_refl) as (t & ((tag & Hin) & _) & Hlt).
    specialize (Hs _ _ Hin). lia.
  - assert (kind_wide k (make_env flags counts) = true) as -> by tauto.
    destruct Hs as (t & ((tag & Hin) & _) & Hlt).
    destruct (forallb _ _) eqn:F; [|reflexivity]. rewrite forallb_forall in F.
    specialize (F _ Hin). cbn [snd] in F. apply N.ltb_lt in F. lia.
Qed.

Lemma index_width_make flags counts sz t : counts_match counts sz ->
  at_table false (wide_table_handles (make_env flags counts)) t = negb (rows sz t <? 2 ^ 16).
Proof.
  intro Hc. rewrite <- Hc. unfold at_table. cbn [wide_table_handles make_env].
  change false with ((fun c => 65535 <? c) 0) at 1. rewrite map_nth.
  set (x := nth _ counts 0). change (2 ^ 16) with 65536.
  destruct (N.ltb_spec 65535 x); destruct (N.ltb_spec x 65536); try reflexivity; lia.
Qed.

Lemma make_env_matches flags counts sz :
  counts_match counts sz -> (forall k, settled (rows sz) k) ->
  has flags 1 = big_strings sz -> has flags 2 = big_guids sz -> has flags 4 = big_blobs sz ->
  env_matches (make_env flags counts) sz.
Proof.
  intros Hc Hs H1 H2 H4. split; try assumption.
  - intro t. apply index_width_make; exact Hc.
  - intro k. rewrite <- (settled_width flags counts sz k Hc (Hs k)). destruct k; reflexivity.
Qed.

Lemma has_testbit flags k b : N.testbit flags k = b -> has flags (2 ^ k) = b.
Proof.
  intros <-. unfold has. destruct (N.testbit flags k) eqn:E.
  - apply N.eqb_eq. apply N.bits_inj. intro j. rewrite N.land_spec, N.pow2_bits_eqb.
    destruct (N.eqb_spec k j) as [<-|]; [rewrite E; reflexivity|apply andb_false_r].
  - apply N.eqb_neq. intro H. apply (f_equal (fun x => N.testbit x k)) in H.
    rewrite N.land_spec, N.pow2_bits_eqb, N.eqb_refl, E in H. discriminate H.
Qed.

(** ** Row counts *)

Lemma mask_of_testbit (l : list (N * table)) i : NoDup (map fst l) ->
  N.testbit (mask_of l) i = existsb (fun it => fst it =? i) l.
Proof.
  unfold mask_of. revert i. induction l as [|[a x] l IH]; intros i Hn; [apply N.bits_0|].
  cbn [map fold_right existsb fst] in *. inversion Hn as [|? ? Ha Hl]; subst.
  set (r := fold_right _ _ _) in *.
  assert (Hr : N.testbit r a = false).
  { rewrite (IH a Hl). destruct (existsb _ l) eqn:Ex; [|reflexivity].
    apply existsb_exists in Ex as (it & Hin & He). apply N.eqb_eq in He. exfalso. apply Ha.
    rewrite <- He. apply in_map; exact Hin. }
  rewrite N.add_nocarry_lxor.
  - rewrite N.lxor_spec, N.pow2_bits_eqb, (IH i Hl).
    destruct (a =? i) eqn:Ea; cbn [orb]; [|apply xorb_false_l].
    apply N.eqb_eq in Ea. subst i. rewrite <- (IH a Hl), Hr. reflexivity.
  - apply N.bits_inj. intro j. rewrite N.land_spec, N.pow2_bits_eqb, N.bits_0.
    destruct (N.eqb_spec a j) as [->|]; [rewrite Hr|]; reflexivity.
Qed.

(** Numbers increasing from [i] on. *)
Fixpoint ascending {A} (i : N) (l : list (N * A)) : Prop :=
  match l with [] => True | (a, _) :: l' => i <= a /\ ascending (a + 1) l' end.

Lemma ascending_weaken {A} i j (l : list (N * A)) : j <= i -> ascending i l -> ascending j l.
Proof. destruct l as [|[a x] l]; cbn; [tauto|]. intros H [H1 H2]. split; [lia|exact H2]. Qed.

Lemma ascending_filter {A} (f : N * A -> bool) i l : ascending i l -> ascending i (filter f l).
Proof.
  revert i. induction l as [|[a x] l IH]; intros i; cbn [filter ascending]; [tauto|].
  intros [H1 H2]. destruct (f (a, x)).
  - cbn. split; [exact H1|apply IH; exact H2].
  - apply ascending_weaken with (a + 1); [lia|apply IH; exact H2].
Qed.

Lemma ascending_ge {A} i (l : list (N * A)) it : ascending i l -> In it l -> i <= fst it.
Proof.
  revert i. induction l as [|[a x] l IH]; intros i; cbn; [tauto|].
  intros [H1 H2] [<-|Hin]; [exact H1|]. specialize (IH _ H2 Hin). cbn. lia.
Qed.

Lemma ascending_nodup {A} i (l : list (N * A)) : ascending i l -> NoDup (map fst l).
Proof.
  revert i. induction l as [|[a x] l IH]; intros i; cbn [ascending map fst]; [constructor|].
  intros [H1 H2]. constructor; [|eapply IH; exact H2].
  intro Hin. apply in_map_iff in Hin as (it & He & Hin). pose proof (ascending_ge _ _ _ H2 Hin). lia.
Qed.

Lemma spread_spec {A} (g : N * A -> N) present n i (l : list (N * A)) :
  ascending i l -> (forall it, In it l -> fst it < i + N.of_nat n) ->
  (forall j, i <= j -> N.testbit present j = existsb (fun it => fst it =? j) l) ->
  count_ones present i n = len l /\
  forall j, (j < n)%nat -> nth j (spread present i n (map g l)) 0 =
    match find (fun it => fst it =? i + N.of_nat j) l with Some it => g it | None => 0 end.
Proof.
  revert i l. induction n as [|n IH]; intros i l Ha Hb Ht.
  - destruct l as [|it l]; [split; [reflexivity|intros; lia]|].
    exfalso. specialize (Hb it (or_introl eq_refl)). pose proof (ascending_ge _ _ it Ha (or_introl eq_refl)). lia.
  - cbn [count_ones spread]. destruct l as [|[a x] l].
    + rewrite (Ht i) by lia. cbn [existsb map]. specialize (IH (i + 1) [] I).
      destruct IH as [IH1 IH2]; [intros it []|intros j Hj; rewrite Ht by lia; reflexivity|].
      split; [exact IH1|]. intros [|j] Hj; [reflexivity|]. cbn [nth]. apply IH2. lia.
    + destruct Ha as [H1 H2]. rewrite (Ht i) by lia. cbn [existsb fst map].
      destruct (N.eqb_spec a i) as [->|Hne]; cbn [orb].
      * destruct (IH (i + 1) l H2) as [IH1 IH2].
        { intros it Hin. specialize (Hb it (or_intror Hin)). lia. }
        { intros j Hj. rewrite Ht by lia. cbn [existsb fst].
          destruct (N.eqb_spec i j); [lia|reflexivity]. }
        split; [rewrite IH1, len_cons; reflexivity|].
        intros [|j] Hj; cbn [nth find fst].
        { rewrite N.add_0_r, N.eqb_refl. reflexivity. }
        rewrite IH2 by lia. destruct (N.eqb_spec i (i + N.of_nat (S j))); [lia|].
        replace (i + 1 + N.of_nat j) with (i + N.of_nat (S j)) by lia. reflexivity.
      * destruct (existsb (fun it => fst it =? i) l) eqn:Ex.
        { apply existsb_exists in Ex as (it & Hin & He). apply N.eqb_eq in He.
          pose proof (ascending_ge _ _ _ H2 Hin). lia. }
        destruct (IH (i + 1) ((a, x) :: l)) as [IH1 IH2].
        { cbn. split; [lia|exact H2]. }
        { intros it Hin. specialize (Hb it Hin). lia. }
        { intros j Hj. apply Ht. lia. }
        split; [rewrite IH1; lia|].
        intros [|j] Hj.
        { cbn [nth find fst]. rewrite N.add_0_r. destruct (N.eqb_spec a i); [lia|].
          destruct (find _ l) as [it|] eqn:Ef; [|reflexivity].
          apply find_some in Ef as [Hin He]. apply N.eqb_eq in He.
          pose proof (ascending_ge _ _ _ H2 Hin). lia. }
        cbn [nth]. change (g (a, x) :: map g l) with (map g ((a, x) :: l)).
        rewrite IH2 by lia.
        replace (i + 1 + N.of_nat j) with (i + N.of_nat (S j)) by lia. reflexivity.
Qed.

Lemma find_in {A} (l : list (N * A)) a x : NoDup (map fst l) -> In (a, x) l ->
  find (fun it => fst it =? a) l = Some (a, x).
Proof.
  induction l as [|[b y] l IH]; [intros _ []|]. cbn [map fst find]. intros Hn Hin.
  inversion Hn as [|? ? Hb Hl]; subst. destruct (N.eqb_spec b a) as [->|Hne].
  - destruct Hin as [Hin|Hin]; [congruence|]. exfalso. apply Hb.
    change a with (fst (a, x)). apply in_map; exact Hin.
  - destruct Hin as [Hin|Hin]; [congruence|]. apply IH; assumption.
Qed.

Lemma ecma_ascending : ascending 0 ecma_tables.
Proof. cbn. repeat split; discriminate. Qed.
Lemma ecma_below it : In it ecma_tables -> fst it < 64.
Proof.
  intro H. cbn [ecma_tables In] in H.
  repeat (destruct H as [<-|H]; [reflexivity|]). destruct H.
Qed.
Lemma ecma_fst it : In it ecma_tables -> fst it = table_id (snd it).
Proof.
  intro H. cbn [ecma_tables In] in H.
  repeat (destruct H as [<-|H]; [reflexivity|]). destruct H.
Qed.

Lemma listed_ascending valid : ascending 0 (listed_tables valid).
Proof. unfold listed_tables. apply ascending_filter. exact ecma_ascending. Qed.
Lemma listed_in valid it : In it (listed_tables valid) <-> In it ecma_tables /\ valid (snd it) = true.
Proof. unfold listed_tables. apply filter_In. Qed.
Opaque ecma_tables listed_tables.

Lemma listed_counts_gen (valid : table -> bool) (count : table -> N) present n :
  n = 64%nat -> present = mask_of (listed_tables valid) ->
  (forall t, valid t = false -> count t = 0) ->
  count_ones present 0 n = len (listed_tables valid) /\
  forall t, at_table 0 (spread present 0 n
     (map (fun it => count (snd it)) (listed_tables valid))) t = count t.
Proof.
  intros Hn64 Hp Hv.
  assert (Ha : ascending 0 (listed_tables valid)) by (apply listed_ascending).
  assert (Hn := ascending_nodup _ _ Ha).
  assert (Hb1 : forall it, In it (listed_tables valid) -> fst it < 0 + N.of_nat n).
  { intros it Hin. apply listed_in in Hin as [Hin _]. apply ecma_below in Hin. subst n. exact Hin. }
  assert (Hb2 : forall j, 0 <= j -> N.testbit present j = existsb (fun it => fst it =? j) (listed_tables valid)).
  { intros j _. subst present. apply mask_of_testbit; exact Hn. }
  destruct (spread_spec (fun it => count (snd it)) present n 0 (listed_tables valid) Ha Hb1 Hb2) as [H1 H2].
  split; [exact H1|]. intro t. unfold at_table.
  assert (Hb : (N.to_nat (table_id t) < n)%nat).
  { pose proof (ecma_below _ (ecma_complete t)) as Hb. cbn [fst] in Hb. subst n. lia. }
  rewrite (H2 _ Hb). rewrite N2Nat.id, N.add_0_l.
  destruct (valid t) eqn:Ev.
  - rewrite (find_in _ (table_id t) t Hn); [reflexivity|].
    apply listed_in. split; [apply ecma_complete|exact Ev].
  - rewrite (Hv t Ev). destruct (find _ _) as [it|] eqn:Ef; [|reflexivity].
    apply find_some in Ef as [Hin He]. apply listed_in in Hin as [Hin Hval].
    apply N.eqb_eq in He. rewrite (ecma_fst _ Hin) in He. apply table_id_inj in He.
    congruence.
Qed.

Lemma listed_counts (valid : table -> bool) (count : table -> N) :
  (forall t, valid t = false -> count t = 0) ->
  count_ones (mask_of (listed_tables valid)) 0 64 = len (listed_tables valid) /\
  forall t, at_table 0 (spread (mask_of (listed_tables valid)) 0 64
     (map (fun it => count (snd it)) (listed_tables valid))) t = count t.
Proof. exact (listed_counts_gen valid count _ _ eq_refl eq_refl). Qed.

Lemma listed_mask_bound valid : mask_of (listed_tables valid) < 2 ^ 64.
Proof.
  assert (Hn : NoDup (map fst (listed_tables valid)))
    by (eapply ascending_nodup, listed_ascending).
  destruct (N.eq_dec (mask_of (listed_tables valid)) 0) as [->|Hnz]; [reflexivity|].
  apply N.log2_lt_pow2; [lia|].
  pose proof (N.bit_log2 _ Hnz) as Hb. rewrite (mask_of_testbit _ _ Hn) in Hb.
  apply existsb_exists in Hb as (it & Hin & He). apply N.eqb_eq in He. rewrite <- He.
  apply listed_in in Hin as [Hin _]. apply ecma_below; exact Hin.
Qed.

Transparent ecma_tables listed_tables.

(** ** Whole tables *)

Definition row_supported (r : row) : Prop :=
  match r with RCustomAttribute x => ref_table (ca_parent x) <> TDeclSecurity | _ => True end.

Lemma columns_supported r cs : row_columns r cs -> row_supported r -> Forall supported cs.
Proof.
  intros H Hs. destruct H; repeat (apply Forall_cons; [|]); try apply Forall_nil; try exact I.
  cbn in *. destruct (ref_table parent); try exact I. apply Hs; reflexivity.
Qed.

Lemma parses_map_inv {A B} (m : M reader A) (R : A -> B) bs a :
  (forall x y, R x = R y -> x = y) -> parses (x <- m ;; ret (R x)) bs (R a) -> parses m bs a.
Proof.
  intros Hinj H pre rest Hs. specialize (H pre rest Hs). unfold bind in H.
  destruct (m _) as [x s| | | |]; try discriminate H. unfold ret in H.
  injection H as Hx Hst. apply Hinj in Hx. subst. reflexivity.
Qed.

Lemma parses_table {A} E sz p (m : M reader A) (R : A -> row) t l b :
  env_matches E sz -> (forall x y, R x = R y -> x = y) ->
  (forall x, row_table (R x) = t) ->
  row_reader t p E = (x <- m ;; ret (R x)) ->
  at_table 0 (row_counts E) t = len l ->
  (forall x, In x l -> row_supported (R x)) ->
  rows_bytes sz (map R l) b ->
  parses (read_table E t m) b l.
Proof.
  intros M Hinj Ht Hm Hc Hs Hb. unfold read_table. rewrite Hc, to_nat_len. clear Hc.
  revert b Hs Hb. induction l as [|a l IH]; intros b Hs Hb; cbn [map List.length repeat_m] in *.
  - inversion Hb; subst. apply parses_ret.
  - inversion Hb as [|r rs cs b1 bs Hrc Hcs Hrs]; subst.
    eapply parses_bind.
    + eapply (parses_map_inv m R); [exact Hinj|]. rewrite <- Hm, <- (Ht a).
      eapply parses_row; [exact M|exact Hrc| |exact Hcs].
      eapply columns_supported; [exact Hrc|]. apply Hs. left; reflexivity.
    + rewrite <- (app_nil_r bs). eapply parses_bind; [|apply parses_ret].
      apply IH; [intros x Hx; apply Hs; right; exact Hx|exact Hrs].
Qed.

Lemma parses_tables E sz p T body : env_matches E sz ->
  (forall t, at_table 0 (row_counts E) t = len (rows_of T t)) ->
  (forall x, In x (tb_custom_attribute T) -> ref_table (ca_parent x) <> TDeclSecurity) ->
  tables_bytes sz T ecma_tables body ->
  parses (read_tables p E) body T.
Proof.
  intros M Hc Hs Hb. unfold ecma_tables in Hb. unfold read_tables.
  inversion Hb as [|? ? ? ? ? H Hb']; subst; clear Hb; rename Hb' into Hb.
  eapply parses_bind; [eapply (parses_table E sz p _ RModule);
    [exact M|intros x y Hxy; injection Hxy as ->; reflexivity|reflexivity|reflexivity
    |rewrite Hc; cbn [rows_of]; apply len_map|intros; exact I|exact H]|clear H].
  inversion Hb as [|? ? ? ? ? H Hb']; subst; clear Hb; rename Hb' into Hb.
  eapply parses_bind; [eapply (parses_table E sz p _ RTypeRef);
    [exact M|intros x y Hxy; injection Hxy as ->; reflexivity|reflexivity|reflexivity
    |rewrite Hc; cbn [rows_of]; apply len_map|intros; exact I|exact H]|clear H].
  inversion Hb as [|? ? ? ? ? H Hb']; subst; clear Hb; rename Hb' into Hb.
  eapply parses_bind; [eapply (parses_table E sz p _ RTypeDef);
    [exact M|intros x y Hxy; injection Hxy as ->; reflexivity|reflexivity|reflexivity
    |rewrite Hc; cbn [rows_of]; apply len_map|intros; exact I|exact H]|clear H].
  inversion Hb as [|? ? ? ? ? H Hb']; subst; clear Hb; rename Hb' into Hb.
  eapply parses_bind; [eapply (parses_table E sz p _ RField);
    [exact M|intros x y Hxy; injection Hxy as ->; reflexivity|reflexivity|reflexivity
    |rewrite Hc; cbn [rows_of]; apply len_map|intros; exact I|exact H]|clear H].
  inversion Hb as [|? ? ? ? ? H Hb']; subst; clear Hb; rename Hb' into Hb.
  eapply parses_bind; [eapply (parses_table E sz p _ RMethodDef);
    [exact M|intros x y Hxy; injection Hxy as ->; reflexivity|reflexivity|reflexivity
    |rewrite Hc; cbn [rows_of]; apply len_map|intros; exact I|exact H]|clear H].
  inversion Hb as [|? ? ? ? ? H Hb']; subst; clear Hb; rename Hb' into Hb.
  eapply parses_bind; [eapply (parses_table E sz p _ RParam);
    [exact M|intros x y Hxy; injection Hxy as ->; reflexivity|reflexivity|reflexivity
    |rewrite Hc; cbn [rows_of]; apply len_map|intros; exact I|exact H]|clear H].
  inversion Hb as [|? ? ? ? ? H Hb']; subst; clear Hb; rename Hb' into Hb.
  eapply parses_bind; [eapply (parses_table E sz p _ RInterfaceImpl);
    [exact M|intros x y Hxy; injection Hxy as ->; reflexivity|reflexivity|reflexivity
    |rewrite Hc; cbn [rows_of]; apply len_map|intros; exact I|exact H]|clear H].
  inversion Hb as [|? ? ? ? ? H Hb']; subst; clear Hb; rename Hb' into Hb.
  eapply parses_bind; [eapply (parses_table E sz p _ RMemberRef);
    [exact M|intros x y Hxy; injection Hxy as ->; reflexivity|reflexivity|reflexivity
    |rewrite Hc; cbn [rows_of]; apply len_map|intros; exact I|exact H]|clear H].
  inversion Hb as [|? ? ? ? ? H Hb']; subst; clear Hb; rename Hb' into Hb.
  eapply parses_bind; [eapply (parses_table E sz p _ RConstant);
    [exact M|intros x y Hxy; injection Hxy as ->; reflexivity|reflexivity|reflexivity
    |rewrite Hc; cbn [rows_of]; apply len_map|intros; exact I|exact H]|clear H].
  inversion Hb as [|? ? ? ? ? H Hb']; subst; clear Hb; rename Hb' into Hb.
  eapply parses_bind; [eapply (parses_table E sz p _ RCustomAttribute);
    [exact M|intros x y Hxy; injection Hxy as ->; reflexivity|reflexivity|reflexivity
    |rewrite Hc; cbn [rows_of]; apply len_map|exact Hs|exact H]|clear H].
  inversion Hb as [|? ? ? ? ? H Hb']; subst; clear Hb; rename Hb' into Hb.
  eapply parses_bind; [eapply (parses_table E sz p _ RFieldMarshal);
    [exact M|intros x y Hxy; injection Hxy as ->; reflexivity|reflexivity|reflexivity
    |rewrite Hc; cbn [rows_of]; apply len_map|intros; exact I|exact H]|clear H].
  inversion Hb as [|? ? ? ? ? H Hb']; subst; clear Hb; rename Hb' into Hb.
  eapply parses_bind; [eapply (parses_table E sz p _ RDeclSecurity);
    [exact M|intros x y Hxy; injection Hxy as ->; reflexivity|reflexivity|reflexivity
    |rewrite Hc; cbn [rows_of]; apply len_map|intros; exact I|exact H]|clear H].
  inversion Hb as [|? ? ? ? ? H Hb']; subst; clear Hb; rename Hb' into Hb.
  eapply parses_bind; [eapply (parses_table E sz p _ RClassLayout);
    [exact M|intros x y Hxy; injection Hxy as ->; reflexivity|reflexivity|reflexivity
    |rewrite Hc; cbn [rows_of]; apply len_map|intros; exact I|exact H]|clear H].
  inversion Hb as [|? ? ? ? ? H Hb']; subst; clear Hb; rename Hb' into Hb.
  eapply parses_bind; [eapply (parses_table E sz p _ RFieldLayout);
    [exact M|intros x y Hxy; injection Hxy as ->; reflexivity|reflexivity|reflexivity
    |rewrite Hc; cbn [rows_of]; apply len_map|intros; exact I|exact H]|clear H].
  inversion Hb as [|? ? ? ? ? H Hb']; subst; clear Hb; rename Hb' into Hb.
  eapply parses_bind; [eapply (parses_table E sz p _ RStandaloneSig);
    [exact M|intros x y Hxy; injection Hxy as ->; reflexivity|reflexivity|reflexivity
    |rewrite Hc; cbn [rows_of]; apply len_map|intros; exact I|exact H]|clear H].
  inversion Hb as [|? ? ? ? ? H Hb']; subst; clear Hb; rename Hb' into Hb.
  eapply parses_bind; [eapply (parses_table E sz p _ REventMap);
    [exact M|intros x y Hxy; injection Hxy as ->; reflexivity|reflexivity|reflexivity
    |rewrite Hc; cbn [rows_of]; apply len_map|intros; exact I|exact H]|clear H].
  inversion Hb as [|? ? ? ? ? H Hb']; subst; clear Hb; rename Hb' into Hb.
  eapply parses_bind; [eapply (parses_table E sz p _ REvent);
    [exact M|intros x y Hxy; injection Hxy as ->; reflexivity|reflexivity|reflexivity
    |rewrite Hc; cbn [rows_of]; apply len_map|intros; exact I|exact H]|clear H].
  inversion Hb as [|? ? ? ? ? H Hb']; subst; clear Hb; rename Hb' into Hb.
  eapply parses_bind; [eapply (parses_table E sz p _ RPropertyMap);
    [exact M|intros x y Hxy; injection Hxy as ->; reflexivity|reflexivity|reflexivity
    |rewrite Hc; cbn [rows_of]; apply len_map|intros; exact I|exact H]|clear H].
  inversion Hb as [|? ? ? ? ? H Hb']; subst; clear Hb; rename Hb' into Hb.
  eapply parses_bind; [eapply (parses_table E sz p _ RProperty);
    [exact M|intros x y Hxy; injection Hxy as ->; reflexivity|reflexivity|reflexivity
    |rewrite Hc; cbn [rows_of]; apply len_map|intros; exact I|exact H]|clear H].
  inversion Hb as [|? ? ? ? ? H Hb']; subst; clear Hb; rename Hb' into Hb.
  eapply parses_bind; [eapply (parses_table E sz p _ RMethodSemantics);
    [exact M|intros x y Hxy; injection Hxy as ->; reflexivity|reflexivity|reflexivity
    |rewrite Hc; cbn [rows_of]; apply len_map|intros; exact I|exact H]|clear H].
  inversion Hb as [|? ? ? ? ? H Hb']; subst; clear Hb; rename Hb' into Hb.
  eapply parses_bind; [eapply (parses_table E sz p _ RMethodImpl);
    [exact M|intros x y Hxy; injection Hxy as ->; reflexivity|reflexivity|reflexivity
    |rewrite Hc; cbn [rows_of]; apply len_map|intros; exact I|exact H]|clear H].
  inversion Hb as [|? ? ? ? ? H Hb']; subst; clear Hb; rename Hb' into Hb.
  eapply parses_bind; [eapply (parses_table E sz p _ RModuleRef);
    [exact M|intros x y Hxy; injection Hxy as ->; reflexivity|reflexivity|reflexivity
    |rewrite Hc; cbn [rows_of]; apply len_map|intros; exact I|exact H]|clear H].
  inversion Hb as [|? ? ? ? ? H Hb']; subst; clear Hb; rename Hb' into Hb.
  eapply parses_bind; [eapply (parses_table E sz p _ RTypeSpec);
    [exact M|intros x y Hxy; injection Hxy as ->; reflexivity|reflexivity|reflexivity
    |rewrite Hc; cbn [rows_of]; apply len_map|intros; exact I|exact H]|clear H].
  inversion Hb as [|? ? ? ? ? H Hb']; subst; clear Hb; rename Hb' into Hb.
  eapply parses_bind; [eapply (parses_table E sz p _ RImplMap);
    [exact M|intros x y Hxy; injection Hxy as ->; reflexivity|reflexivity|reflexivity
    |rewrite Hc; cbn [rows_of]; apply len_map|intros; exact I|exact H]|clear H].
  inversion Hb as [|? ? ? ? ? H Hb']; subst; clear Hb; rename Hb' into Hb.
  eapply parses_bind; [eapply (parses_table E sz p _ RFieldRva);
    [exact M|intros x y Hxy; injection Hxy as ->; reflexivity|reflexivity|reflexivity
    |rewrite Hc; cbn [rows_of]; apply len_map|intros; exact I|exact H]|clear H].
  inversion Hb as [|? ? ? ? ? H Hb']; subst; clear Hb; rename Hb' into Hb.
  eapply parses_bind; [eapply (parses_table E sz p _ RAssembly);
    [exact M|intros x y Hxy; injection Hxy as ->; reflexivity|reflexivity|reflexivity
    |rewrite Hc; cbn [rows_of]; apply len_map|intros; exact I|exact H]|clear H].
  inversion Hb as [|? ? ? ? ? H Hb']; subst; clear Hb; rename Hb' into Hb.
  eapply parses_bind; [eapply (parses_table E sz p _ RAssemblyProcessor);
    [exact M|intros x y Hxy; injection Hxy as ->; reflexivity|reflexivity|reflexivity
    |rewrite Hc; cbn [rows_of]; apply len_map|intros; exact I|exact H]|clear H].
  inversion Hb as [|? ? ? ? ? H Hb']; subst; clear Hb; rename Hb' into Hb.
  eapply parses_bind; [eapply (parses_table E sz p _ RAssemblyOs);
    [exact M|intros x y Hxy; injection Hxy as ->; reflexivity|reflexivity|reflexivity
    |rewrite Hc; cbn [rows_of]; apply len_map|intros; exact I|exact H]|clear H].
  inversion Hb as [|? ? ? ? ? H Hb']; subst; clear Hb; rename Hb' into Hb.
  eapply parses_bind; [eapply (parses_table E sz p _ RAssemblyRef);
    [exact M|intros x y Hxy; injection Hxy as ->; reflexivity|reflexivity|reflexivity
    |rewrite Hc; cbn [rows_of]; apply len_map|intros; exact I|exact H]|clear H].
  inversion Hb as [|? ? ? ? ? H Hb']; subst; clear Hb; rename Hb' into Hb.
  eapply parses_bind; [eapply (parses_table E sz p _ RAssemblyRefProcessor);
    [exact M|intros x y Hxy; injection Hxy as ->; reflexivity|reflexivity|reflexivity
    |rewrite Hc; cbn [rows_of]; apply len_map|intros; exact I|exact H]|clear H].
  inversion Hb as [|? ? ? ? ? H Hb']; subst; clear Hb; rename Hb' into Hb.
  eapply parses_bind; [eapply (parses_table E sz p _ RAssemblyRefOs);
    [exact M|intros x y Hxy; injection Hxy as ->; reflexivity|reflexivity|reflexivity
    |rewrite Hc; cbn [rows_of]; apply len_map|intros; exact I|exact H]|clear H].
  inversion Hb as [|? ? ? ? ? H Hb']; subst; clear Hb; rename Hb' into Hb.
  eapply parses_bind; [eapply (parses_table E sz p _ RFile);
    [exact M|intros x y Hxy; injection Hxy as ->; reflexivity|reflexivity|reflexivity
    |rewrite Hc; cbn [rows_of]; apply len_map|intros; exact I|exact H]|clear H].
  inversion Hb as [|? ? ? ? ? H Hb']; subst; clear Hb; rename Hb' into Hb.
  eapply parses_bind; [eapply (parses_table E sz p _ RExportedType);
    [exact M|intros x y Hxy; injection Hxy as ->; reflexivity|reflexivity|reflexivity
    |rewrite Hc; cbn [rows_of]; apply len_map|intros; exact I|exact H]|clear H].
  inversion Hb as [|? ? ? ? ? H Hb']; subst; clear Hb; rename Hb' into Hb.
  eapply parses_bind; [eapply (parses_table E sz p _ RManifestResource);
    [exact M|intros x y Hxy; injection Hxy as ->; reflexivity|reflexivity|reflexivity
    |rewrite Hc; cbn [rows_of]; apply len_map|intros; exact I|exact H]|clear H].
  inversion Hb as [|? ? ? ? ? H Hb']; subst; clear Hb; rename Hb' into Hb.
  eapply parses_bind; [eapply (parses_table E sz p _ RNestedClass);
    [exact M|intros x y Hxy; injection Hxy as ->; reflexivity|reflexivity|reflexivity
    |rewrite Hc; cbn [rows_of]; apply len_map|intros; exact I|exact H]|clear H].
  inversion Hb as [|? ? ? ? ? H Hb']; subst; clear Hb; rename Hb' into Hb.
  eapply parses_bind; [eapply (parses_table E sz p _ RGenericParam);
    [exact M|intros x y Hxy; injection Hxy as ->; reflexivity|reflexivity|reflexivity
    |rewrite Hc; cbn [rows_of]; apply len_map|intros; exact I|exact H]|clear H].
  inversion Hb as [|? ? ? ? ? H Hb']; subst; clear Hb; rename Hb' into Hb.
  eapply parses_bind; [eapply (parses_table E sz p _ RMethodSpec);
    [exact M|intros x y Hxy; injection Hxy as ->; reflexivity|reflexivity|reflexivity
    |rewrite Hc; cbn [rows_of]; apply len_map|intros; exact I|exact H]|clear H].
  inversion Hb as [|? ? ? ? ? H Hb']; subst; clear Hb; rename Hb' into Hb.
  eapply parses_bind; [eapply (parses_table E sz p _ RGenericParamConstraint);
    [exact M|intros x y Hxy; injection Hxy as ->; reflexivity|reflexivity|reflexivity
    |rewrite Hc; cbn [rows_of]; apply len_map|intros; exact I|exact H]|clear H].
  inversion Hb; subst. apply parses_ret_eq. destruct T; reflexivity.
Qed.

Lemma chunks_flat {X} (g : X -> N) (l : list X) :
  (forall x, In x l -> g x < 2 ^ 32) ->
  map le_dec (chunks 4 (List.length l) (flat_map (fun x => le_enc 4 (g x)) l)) = map g l.
Proof.
  induction l as [|x l IH]; intro H; [reflexivity|].
  cbn [flat_map List.length chunks map].
  set (r := flat_map _ l).
  change (firstn 4 (le_enc 4 (g x) ++ r)) with (le_enc 4 (g x)).
  change (skipn 4 (le_enc 4 (g x) ++ r)) with r. unfold r.
  rewrite IH by (intros y Hy; apply H; right; exact Hy).
  rewrite le_dec_enc; [reflexivity|]. exact (H x (or_introl eq_refl)).
Qed.

Lemma len_flat_le_enc {X} (g : X -> N) (l : list X) :
  len (flat_map (fun x => le_enc 4 (g x)) l) = len l * 4.
Proof. induction l as [|x l IH]; [reflexivity|]. cbn [flat_map]. rewrite len_app, IH, len_cons, len_le_enc. lia. Qed.

Lemma parses_ok_or {A B} (o : option A) a e (k : A -> M reader B) bs b :
  o = Some a -> parses (k a) bs b -> parses (x <- ok_or o e ;; k x) bs b.
Proof. intros -> H. exact H. Qed.

Opaque listed_tables.
Lemma parses_stream p T bs :
  stream_bytes T bs ->
  (forall k, settled (fun t => len (rows_of T t)) k) ->
  (forall x, In x (tb_custom_attribute T) -> ref_table (ca_parent x) <> TDeclSecurity) ->
  parses (read_table_stream p) bs T.
Proof.
  intros (strings & guids & blobs & r1 & r2 & valid & sorted & body & L1 & Lsort & Hv & Hcnt & Hbody & Hbs)
    Hset Hsup.
  subst bs. unfold read_table_stream. cbn zeta.
  set (flags := bit strings 0 + bit guids 1 + bit blobs 2).
  assert (Hfl : flags < 8) by (unfold flags; destruct strings, guids, blobs; reflexivity).
  destruct (listed_counts valid (fun t => len (rows_of T t))) as [Hones Hcounts].
  { intros t Ht. rewrite (Hv t Ht). reflexivity. }
  apply parses_skip; [exact L1|].
  eapply parses_bind.
  { change [nb flags] with (le_enc (N.to_nat 1) flags). apply parses_rd. change (256 ^ 1) with 256. lia. }
  apply parses_ok_or with flags.
  { unfold heap_size_flags. apply N.ltb_lt in Hfl. rewrite Hfl. reflexivity. }
  apply parses_skip; [reflexivity|].
  eapply parses_bind.
  { change 8%nat with (N.to_nat 8). apply parses_rd. apply listed_mask_bound. }
  eapply parses_bind.
  { change 8%nat with (N.to_nat 8). apply parses_rd. exact Lsort. }
  eapply parses_bind.
  { apply parses_read_array. rewrite Hones. apply len_flat_le_enc. }
  eapply parses_ok_or; [reflexivity|].
  rewrite Hones, to_nat_len.
  rewrite (chunks_flat (fun it => len (rows_of T (snd it))))
    by (intros x _; apply Hcnt).
  eapply parses_tables with (sz := sizes_of strings guids blobs T); [|exact Hcounts|exact Hsup|exact Hbody].
  apply make_env_matches.
  - exact Hcounts.
  - intro k. apply Hset.
  - unfold flags; destruct strings, guids, blobs; reflexivity.
  - unfold flags; destruct strings, guids, blobs; reflexivity.
  - unfold flags; destruct strings, guids, blobs; reflexivity.
Qed.

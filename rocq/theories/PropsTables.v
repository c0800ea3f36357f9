(** Properties C22-C27: the metadata table stream. *)
From Coq Require Import NArith String List Bool Lia.
From Coq.Strings Require Import Byte.
From Verif Require Import Base BinaryReader ParseSpec BaseFacts ReaderFacts Attributes SpecAttributes
  Tables SpecTables TablesApi TablesProofs TablesTotal.
Import ListNotations.
Open Scope N_scope.

(** C22: a column that indexes one table takes two bytes exactly when the table has fewer than
    2^16 rows (see [index_width]), and the number stored in it is read back. *)
Theorem C22_index_width : forall p flags counts sz t m v,
  counts_in counts (rows sz) ->
  index_reader t p (make_env flags counts) = Some m ->
  v < 256 ^ index_width sz t ->
  parses m (le_enc (N.to_nat (index_width sz t)) v) v.
Proof.
  intros p flags counts sz t m v Hc Hm Hv.
  assert (m = read_index p (at_table false (wide_table_handles (make_env flags counts)) t)) as ->.
  { destruct t; try discriminate Hm; injection Hm as <-; reflexivity. }
  apply parses_index; [|exact Hv].
  rewrite (index_width_make flags counts sz t (counts_in_match _ _ Hc)). unfold index_width.
  destruct (rows sz t <? 2 ^ 16); reflexivity.
Qed.
Print Assumptions C22_index_width.

(** A row-count vector with [n] rows in table number [i] and none elsewhere, and its sizes. *)
Definition one_count (i : nat) (n : N) : list N := repeat 0 i ++ [n] ++ repeat 0 (63 - i).
Definition one_size (t : table) (n : N) : sizes :=
  {| big_strings := false; big_guids := false; big_blobs := false;
     rows := fun t' => if table_id t' =? table_id t then n else 0 |}.

Ltac check_counts :=
  let n := fresh "n" in let t := fresh "t" in let H := fresh "H" in
  intros n t H; cbn [ecma_tables In] in H;
  repeat (destruct H as [H|H]; [injection H as <- <-; reflexivity|]); destruct H.

Example C22_index_width_ex :
  counts_in (one_count 4 65535) (rows (one_size TField 65535)) /\
  index_width (one_size TField 65535) TField = 2 /\
  counts_in (one_count 4 65536) (rows (one_size TField 65536)) /\
  index_width (one_size TField 65536) TField = 4 /\
  70000 < 256 ^ index_width (one_size TField 65536) TField.
Proof. split; [check_counts|]. split; [reflexivity|]. split; [check_counts|]. split; reflexivity. Qed.

(** C23, the part that holds.  The full claim, without [settled], is false (see the two
    refutations).  The cursor moves by the ECMA-335 width exactly when the row counts are
    settled, so [settled] is the weakest possible hypothesis. *)
Theorem C23_coded_width_partial : forall p flags counts sz k r x r',
  counts_in counts (rows sz) -> in_bounds r ->
  coded_reader k p (make_env flags counts) r = Ok x r' ->
  (rpos r' = rpos r + coded_width sz k <-> settled (rows sz) k).
Proof.
  intros p flags counts sz k r x r' Hc Hb H. apply coded_reader_width in H; [|exact Hb].
  apply counts_in_match in Hc. split.
  - intro Hw. unfold settled. destruct (kind_wide k (make_env flags counts)) eqn:Ek.
    + right. apply (kind_wide_iff flags counts sz k Hc). exact Ek.
    + left. intros tag t Hin. unfold coded_width in Hw.
      destruct (forallb _ _) eqn:F; [|lia]. rewrite forallb_forall in F.
      specialize (F _ Hin). apply N.ltb_lt in F. exact F.
  - intro Hs. rewrite H, (settled_width flags counts sz k Hc Hs). unfold coded_width.
    destruct (forallb _ _); reflexivity.
Qed.
Print Assumptions C23_coded_width_partial.

Example C23_coded_width_partial_ex :
  counts_in (one_count 8 2049) (rows (one_size TParam 2049)) /\
  settled (rows (one_size TParam 2049)) KHasCustomAttribute /\
  coded_width (one_size TParam 2049) KHasCustomAttribute = 4 /\
  (exists x r', coded_reader KHasCustomAttribute Debug (make_env 0 (one_count 8 2049))
     (mkReader [x04; x00; x01; x00] 0) = Ok x r') /\
  settled (rows (one_size TParam 2047)) KHasCustomAttribute.
Proof.
  split; [check_counts|]. split.
  { right. exists TParam. split; [|reflexivity]. split; [exists 4; cbn; tauto|intros [_ H]; discriminate H]. }
  split; [reflexivity|]. split; [eexists; eexists; reflexivity|].
  left. intros tag t H. cbn [coded_tags In] in H.
  repeat (destruct H as [H|H]; [injection H as <- <-; reflexivity|]). destruct H.
Qed.

(** With exactly 2^(16-bits) rows the reader takes two bytes where the standard says four. *)
Theorem C23_coded_width_refuted : forall p k,
  exists sz counts r x r', counts_in counts (rows sz) /\ in_bounds r /\
    coded_reader k p (make_env 0 counts) r = Ok x r' /\
    coded_width sz k = 4 /\ rpos r' = rpos r + 2.
Proof.
  intros p k.
  assert (H : exists i t r, counts_in (one_count i (2 ^ (16 - coded_bits k))) (rows (one_size t (2 ^ (16 - coded_bits k)))) /\
    coded_width (one_size t (2 ^ (16 - coded_bits k))) k = 4 /\ in_bounds r /\ 
    exists x r', coded_reader k p (make_env 0 (one_count i (2 ^ (16 - coded_bits k)))) r = Ok x r' /\ rpos r' = rpos r + 2).
  { destruct k;
    [exists 2%nat, TTypeDef, (mkReader [x00; x00] 0)|exists 4%nat, TField, (mkReader [x00; x00] 0)
    |exists 4%nat, TField, (mkReader [x00; x00] 0)|exists 4%nat, TField, (mkReader [x00; x00] 0)
    |exists 6%nat, TMethodDef, (mkReader [x00; x00] 0)|exists 2%nat, TTypeDef, (mkReader [x00; x00] 0)
    |exists 20%nat, TEvent, (mkReader [x00; x00] 0)|exists 6%nat, TMethodDef, (mkReader [x00; x00] 0)
    |exists 4%nat, TField, (mkReader [x00; x00] 0)|exists 38%nat, TFile, (mkReader [x00; x00] 0)
    |exists 6%nat, TMethodDef, (mkReader [x02; x00] 0)|exists 1%nat, TTypeRef, (mkReader [x00; x00] 0)
    |exists 2%nat, TTypeDef, (mkReader [x00; x00] 0)];
    (split; [check_counts|]); (split; [reflexivity|]); (split; [split; discriminate || reflexivity|]);
    destruct p; eexists; eexists; split; reflexivity. }
  destruct H as (i & t & r & H1 & H2 & H3 & x & r' & H4 & H5). eauto 12.
Qed.
Print Assumptions C23_coded_width_refuted.

(** C24, the part that holds: a reference read through any coded-index kind, narrow or wide, is
    the one that was encoded.  Missing: custom attributes of DeclSecurity rows (refuted below). *)
Theorem C24_coded_round_trip_partial : forall p E k t i tag w v,
  In (tag, t) (coded_tags k) -> ~ (k = KHasCustomAttribute /\ t = TDeclSecurity) ->
  w = (if kind_wide k E then 4 else 2) ->
  v = i * 2 ^ coded_bits k + tag -> v < 256 ^ w ->
  parses (coded_reader k p E) (le_enc (N.to_nat w) v) (mkRef t i).
Proof.
  intros p E k t i tag w v Hin Hn Hw Hv Hb.
  eapply (parses_coded_value E p k (mkRef t i)); try eassumption; try reflexivity.
  cbn. destruct k; try exact I. destruct t; try exact I. apply Hn; split; reflexivity.
Qed.
Print Assumptions C24_coded_round_trip_partial.

Example C24_coded_round_trip_partial_ex :
  In (3, TTypeDef) (coded_tags KHasCustomAttribute) /\
  67 = 2 * 2 ^ coded_bits KHasCustomAttribute + 3 /\ 67 < 256 ^ 2 /\
  kind_wide KHasCustomAttribute (make_env 0 (one_count 4 5)) = false /\
  kind_wide KHasCustomAttribute (make_env 0 (one_count 4 5000)) = true.
Proof. split; [cbn; tauto|]. repeat split; reflexivity. Qed.

(** An unassigned tag is an error. *)
Theorem C24_unassigned_tag : forall p E k w v pre rest,
  w = (if kind_wide k E then 4 else 2) -> v < 256 ^ w ->
  (forall t, ~ In (v mod 2 ^ coded_bits k, t) (coded_tags k)) ->
  slice_ok (pre ++ le_enc (N.to_nat w) v ++ rest) ->
  exists e r, coded_reader k p E (mkReader (pre ++ le_enc (N.to_nat w) v ++ rest) (len pre)) = Err e r.
Proof. intros p E k w v pre rest Hw Hv Hno Hs. eapply coded_reader_unassigned; eassumption. Qed.
Print Assumptions C24_unassigned_tag.

Example C24_unassigned_tag_ex :
  (forall t, ~ In (7 mod 2 ^ coded_bits KTypeDefOrRef, t) (coded_tags KTypeDefOrRef)) /\
  (forall t, ~ In (1000 mod 2 ^ coded_bits KCustomAttributeType, t) (coded_tags KCustomAttributeType)).
Proof. split; intros t H; cbn in H; repeat (destruct H as [H|H]; [discriminate H|]); exact H. Qed.

(** Tag 8 (DeclSecurity) of HasCustomAttribute is rejected for every row, narrow or wide. *)
Theorem C24_coded_round_trip_refuted : forall p E i w,
  w = (if kind_wide KHasCustomAttribute E then 4 else 2) -> i * 32 + 8 < 256 ^ w ->
  In (8, TDeclSecurity) (coded_tags KHasCustomAttribute) /\
  exists e r, coded_reader KHasCustomAttribute p E (mkReader (le_enc (N.to_nat w) (i * 32 + 8)) 0) = Err e r.
Proof.
  intros p E i w Hw Hv. split; [cbn; tauto|].
  assert (Hs : slice_ok ([] ++ le_enc (N.to_nat w) (i * 32 + 8) ++ [])).
  { unfold slice_ok. rewrite app_nil_r, app_nil_l, len_le_enc, N2Nat.id. subst w.
    destruct (kind_wide _ _); reflexivity. }
  destruct (coded_reader_eq KHasCustomAttribute p E) as (e & ->).
  unfold read_coded, bind.
  pose proof (parses_index p (kind_wide KHasCustomAttribute E) _ w Hw Hv [] [] Hs) as H.
  rewrite app_nil_r, app_nil_l in H. change (len (@nil byte)) with 0 in H. rewrite H.
  change 32 with (2 ^ 5). change (coded_bits KHasCustomAttribute) with 5.
  destruct (split_tag 5 i 8 eq_refl) as [-> _]. eexists; eexists; reflexivity.
Qed.
Print Assumptions C24_coded_round_trip_refuted.

(** C25, the part that holds: reading a row of any of the 38 tables from its encoding gives
    that row and consumes exactly its bytes.  Missing: unsettled row counts (C23) and custom
    attributes of DeclSecurity rows (C24), where the full claim is false. *)
Theorem C25_row_partial : forall p flags counts sz r cs bs,
  row_columns r cs -> columns_bytes sz cs bs ->
  counts_in counts (rows sz) -> (forall k, settled (rows sz) k) -> Forall supported cs ->
  N.testbit flags 0 = big_strings sz -> N.testbit flags 1 = big_guids sz ->
  N.testbit flags 2 = big_blobs sz ->
  parses (row_reader (row_table r) p (make_env flags counts)) bs r /\
  len bs = fold_right N.add 0 (map (column_width sz) cs).
Proof.
  intros p flags counts sz r cs bs Hr Hb Hc Hk Hs H0 H1 H2. split.
  - eapply parses_row; try eassumption.
    apply make_env_matches; try assumption; [apply counts_in_match; exact Hc|..].
    + exact (has_testbit flags 0 _ H0).
    + exact (has_testbit flags 1 _ H1).
    + exact (has_testbit flags 2 _ H2).
  - clear - Hb. induction Hb as [|c cs b bs Hc Hcs IH]; [reflexivity|].
    cbn [map fold_right]. rewrite len_app, IH. f_equal.
    destruct Hc as (v & _ & _ & ->). rewrite len_le_enc. apply N2Nat.id.
Qed.
Print Assumptions C25_row_partial.

Definition example_sizes : sizes :=
  {| big_strings := true; big_guids := false; big_blobs := false; rows := rows (one_size TField 70000) |}.
Definition example_row : row :=
  RCustomAttribute {| ca_parent := mkRef TTypeDef 2; ca_attribute_type := mkRef TMemberRef 1; ca_value := 7 |}.
Definition example_columns : list column :=
  [CCoded KHasCustomAttribute TTypeDef 2; CCoded KCustomAttributeType TMemberRef 1; CBlob 7].

Lemma one_field_settled n : 32768 < n -> forall k, settled (rows (one_size TField n)) k.
Proof.
  intros Hn k. unfold settled.
  destruct k;
    try solve [left; intros tag t H; cbn [coded_tags In] in H;
         repeat (destruct H as [H|H]; [injection H as <- <-; reflexivity|]); destruct H];
    right; exists TField; (split; [split; [eexists; cbn; tauto|intros [_ H]; discriminate H]|]);
    cbn; lia.
Qed.

Example C25_row_partial_ex :
  row_columns example_row example_columns /\
  columns_bytes example_sizes example_columns [x43; x00; x00; x00; x0b; x00; x07; x00] /\
  counts_in (one_count 4 70000) (rows example_sizes) /\
  (forall k, settled (rows example_sizes) k) /\ Forall supported example_columns /\
  N.testbit 1 0 = big_strings example_sizes /\ N.testbit 1 1 = big_guids example_sizes.
Proof.
  split; [constructor|]. split.
  { change [x43; x00; x00; x00; x0b; x00; x07; x00]
      with ([x43; x00; x00; x00] ++ [x0b; x00] ++ [x07; x00] ++ []).
    repeat apply cols_cons; try apply cols_nil.
    - exists 67. split; [exists 3; split; [cbn; tauto|reflexivity]|split; reflexivity].
    - exists 11. split; [exists 3; split; [cbn; tauto|reflexivity]|split; reflexivity].
    - exists 7. repeat split. }
  split; [check_counts|]. split; [apply one_field_settled; reflexivity|].
  split; [repeat constructor|]. split; reflexivity.
Qed.

(** C26, the part that holds: the whole stream of any collection of tables is read back.
    Missing: the same two cases as for C25, where the full claim is false (refuted below). *)
Theorem C26_stream_round_trip_partial : forall p T bs,
  stream_bytes T bs ->
  (forall k, settled (fun t => len (rows_of T t)) k) ->
  (forall x, In x (tb_custom_attribute T) -> ref_table (ca_parent x) <> TDeclSecurity) ->
  parses (read_table_stream p) bs T.
Proof. exact parses_stream. Qed.
Print Assumptions C26_stream_round_trip_partial.

(** [n] equal ModuleRef rows and one custom attribute. *)
Definition refs_and_attribute (n : nat) (parent : row_ref) : tables :=
  {| tb_module := []; tb_type_ref := []; tb_type_def := []; tb_field := []; tb_method_def := []; tb_param := []; tb_interface_impl := []; tb_member_ref := []; tb_constant := []; tb_custom_attribute := [{| ca_parent := parent; ca_attribute_type := mkRef TMemberRef 1; ca_value := 7 |}]; tb_field_marshal := []; tb_decl_security := []; tb_class_layout := []; tb_field_layout := []; tb_standalone_sig := []; tb_event_map := []; tb_event := []; tb_property_map := []; tb_property := []; tb_method_semantics := []; tb_method_impl := []; tb_module_ref := repeat {| mo_name := 9 |} n; tb_type_spec := []; tb_impl_map := []; tb_field_rva := []; tb_assembly := []; tb_assembly_processor := []; tb_assembly_os := []; tb_assembly_ref := []; tb_assembly_ref_processor := []; tb_assembly_ref_os := []; tb_file := []; tb_exported_type := []; tb_manifest_resource := []; tb_nested_class := []; tb_generic_param := []; tb_method_spec := []; tb_generic_param_constraint := [] |}.

(** The bytes of that collection; [pb] are those of the parent column. *)
Definition refs_and_attribute_bytes (n : nat) (pb : list byte) : list byte :=
  [x00; x00; x00; x00; x02; x00] ++ [x00] ++ [x01] ++
  [x00; x10; x00; x04; x00; x00; x00; x00] ++ repeat x00 8 ++
  ([x01; x00; x00; x00] ++ le_enc 4 (N.of_nat n) ++ []) ++
  ((pb ++ [x0b; x00] ++ [x07; x00] ++ []) ++ []) ++ concat (repeat ([x09; x00] ++ []) n).

Lemma map_repeat_eq {A B} (f : A -> B) x n : map f (repeat x n) = repeat (f x) n.
Proof. induction n as [|n IH]; [reflexivity|]. cbn. rewrite IH. reflexivity. Qed.

Lemma module_refs_bytes sz n : big_strings sz = false ->
  rows_bytes sz (repeat (RModuleRef {| mo_name := 9 |}) n) (concat (repeat ([x09; x00] ++ []) n)).
Proof.
  intro H. induction n as [|n IH]; [constructor|]. cbn [repeat concat].
  eapply rows_cons; [constructor| |exact IH].
  apply cols_cons; [|constructor]. exists 9. cbn [column_value column_width]. rewrite H. repeat split.
Qed.

Lemma refs_and_attribute_stream n parent pb : N.of_nat n < 2 ^ 32 -> (0 < n)%nat ->
  (forall sz, big_strings sz = false -> big_blobs sz = false ->
     (forall t, rows sz t = len (rows_of (refs_and_attribute n parent) t)) ->
     column_bytes sz (CCoded KHasCustomAttribute (ref_table parent) (ref_index parent)) pb /\
     coded_width sz KCustomAttributeType = 2) ->
  stream_bytes (refs_and_attribute n parent) (refs_and_attribute_bytes n pb).
Proof.
  intros Hn Hpos Hp.
  exists false, false, false, [x00; x00; x00; x00; x02; x00], x01,
    (fun t => match t with TModuleRef | TCustomAttribute => true | _ => false end), 0,
    (((pb ++ [x0b; x00] ++ [x07; x00] ++ []) ++ []) ++ concat (repeat ([x09; x00] ++ []) n)).
  split; [reflexivity|]. split; [reflexivity|]. split.
  { intros t Ht. destruct t; try discriminate Ht; reflexivity. }
  split.
  { intros t. destruct t; cbn [rows_of refs_and_attribute tb_module_ref tb_custom_attribute map];
      try reflexivity. rewrite len_map, len_repeat. exact Hn. }
  destruct (Hp (sizes_of false false false (refs_and_attribute n parent)) eq_refl eq_refl) as [Hpb Hw];
    [intro t; reflexivity|].
  split.
  { unfold ecma_tables.
    do 9 (rewrite <- app_nil_l; apply tabs_cons; [constructor|]).
    apply tabs_cons.
    { eapply rows_cons; [constructor| |constructor].
      apply cols_cons; [exact Hpb|].
      apply cols_cons.
      { exists 11. split; [exists 3; split; [cbn; tauto|reflexivity]|]. cbn [column_width].
        rewrite Hw. split; reflexivity. }
      apply cols_cons; [exists 7; repeat split|constructor]. }
    do 11 (rewrite <- app_nil_l; apply tabs_cons; [constructor|]).
    rewrite <- (app_nil_r (concat _)). apply tabs_cons.
    { cbn [rows_of refs_and_attribute tb_module_ref]. rewrite map_repeat_eq.
      apply module_refs_bytes; reflexivity. }
    do 16 (rewrite <- app_nil_l; apply tabs_cons; [constructor|]). constructor. }
  unfold refs_and_attribute_bytes.
  change (bit false 0 + bit false 1 + bit false 2) with 0.
  set (l := listed_tables _).
  assert (l = [(0x0c, TCustomAttribute); (0x1a, TModuleRef)]) as -> by reflexivity.
  cbn [flat_map snd rows_of refs_and_attribute tb_module_ref tb_custom_attribute map].
  rewrite len_map, len_repeat. reflexivity.
Qed.

Example C26_stream_round_trip_partial_ex :
  let T := refs_and_attribute 3 (mkRef TModuleRef 2) in
  stream_bytes T (refs_and_attribute_bytes 3 [x4c; x00]) /\
  (forall k, settled (fun t => len (rows_of T t)) k) /\
  (forall x, In x (tb_custom_attribute T) -> ref_table (ca_parent x) <> TDeclSecurity).
Proof.
  cbn zeta. split.
  { apply refs_and_attribute_stream; [reflexivity|lia|]. intros sz H1 H2 Hr.
    unfold column_bytes. cbn [column_width column_value ref_table ref_index].
    unfold coded_width. cbn [coded_tags forallb snd]. rewrite !Hr. split; [|reflexivity].
    exists 76. split; [exists 12; split; [cbn; tauto|reflexivity]|split; reflexivity]. }
  split.
  - intro k. left. intros tag t _. apply N.lt_le_trans with 4.
    + destruct t; reflexivity.
    + destruct k; discriminate.
  - intros x [<-|[]]. discriminate.
Qed.

(** 2048 ModuleRef rows: the stream of a legal collection is not read back. *)
Theorem C26_stream_round_trip_refuted : exists T bs, stream_bytes T bs /\ slice_ok bs /\
  forall p r, read_table_stream p (mkReader bs 0) <> Ok T r.
Proof.
  exists (refs_and_attribute (N.to_nat 2048) (mkRef TModuleRef 2)),
         (refs_and_attribute_bytes (N.to_nat 2048) [x4c; x00; x00; x00]).
  split; [|split].
  - apply refs_and_attribute_stream; [vm_compute; reflexivity|vm_compute; lia|]. intros sz H1 H2 Hr.
    unfold column_bytes. cbn [column_width column_value ref_table ref_index].
    assert (Hw : coded_width sz KHasCustomAttribute = 4).
    { unfold coded_width. cbn [coded_tags forallb snd]. rewrite !Hr. vm_compute. reflexivity. }
    rewrite Hw. split.
    + exists 76. split; [exists 12; split; [cbn; tauto|reflexivity]|split; reflexivity].
    + unfold coded_width. cbn [coded_tags forallb snd]. rewrite !Hr. vm_compute. reflexivity.
  - vm_compute. reflexivity.
  - intros p r.
    set (bs := refs_and_attribute_bytes _ _). 
    assert (H : forall q, match read_table_stream q (mkReader bs 0) with
            | Ok T' _ => match tb_custom_attribute T' with x :: _ => ref_index (ca_attribute_type x) =? 1 | [] => false end
            | _ => false end = false).
    { intro q. destruct q; vm_compute; reflexivity. }
    intro E. specialize (H p). rewrite E in H. discriminate H.
Qed.
Print Assumptions C26_stream_round_trip_refuted.

(** The table reader answers every byte string with tables or an error, never with a panic. *)
Theorem C26_stream_total : forall p data, slice_ok data ->
  (exists T r, read_table_stream p (mkReader data 0) = Ok T r) \/
  (exists e r, read_table_stream p (mkReader data 0) = Err e r).
Proof.
  intros p data Hs. pose proof (calm_stream p (mkReader data 0) Hs) as H.
  cbn [rpos rdata] in H. specialize (H (N.le_0_l _)).
  destruct (read_table_stream p _); try contradiction; eauto.
Qed.
Print Assumptions C26_stream_total.

Example C26_stream_total_ex : slice_ok (refs_and_attribute_bytes 3 [x4c; x00]) /\ slice_ok [].
Proof. split; reflexivity. Qed.

(** C27: the row at 1-based number [k]. *)
Theorem C27_handle_index : forall p (A : Type) (rows : list A) k r,
  1 <= k -> nth_error rows (N.to_nat (k - 1)) = Some r -> table_index p rows k = Ok r tt.
Proof.
  intros p A rows k r Hk H. unfold table_index. rewrite u_sub_small by exact Hk. rewrite H. reflexivity.
Qed.
Print Assumptions C27_handle_index.

Example C27_handle_index_ex : nth_error [10; 20; 30] (N.to_nat (3 - 1)) = Some 30 /\ 1 <= 3.
Proof. split; [reflexivity|discriminate]. Qed.

(** C27, second half, for every table but InterfaceImpl: position to handle to row. *)
Theorem C27_position_round_trip_partial : forall p t (A : Type) (rows : list A) x r,
  t <> TInterfaceImpl -> nth_error rows (N.to_nat x) = Some r ->
  table_index p rows (handle_of_position t x) = Ok r tt.
Proof.
  intros p t A rows x r Ht H. apply C27_handle_index.
  - destruct t; cbn; try lia. congruence.
  - replace (handle_of_position t x - 1) with x; [exact H|]. destruct t; cbn; try lia. congruence.
Qed.
Print Assumptions C27_position_round_trip_partial.

Example C27_position_round_trip_partial_ex :
  TTypeDef <> TInterfaceImpl /\ nth_error [10; 20; 30] (N.to_nat 1) = Some 20.
Proof. split; [discriminate|reflexivity]. Qed.

(** For InterfaceImpl the conversion is off by one: position 0 panics (or is out of bounds), and
    every other position gives the preceding row. *)
Theorem C27_position_round_trip_refuted : forall p (A : Type) (rows : list A),
  len rows < 2 ^ 63 ->
  (exists w, table_index p rows (handle_of_position TInterfaceImpl 0) = Panic w) /\
  forall x r, nth_error rows (N.to_nat x) = Some r ->
    table_index p rows (handle_of_position TInterfaceImpl (x + 1)) = Ok r tt.
Proof.
  intros p A rows Hl. split.
  - cbn [handle_of_position]. unfold table_index. destruct p.
    + eexists. reflexivity.
    + change (u_sub Release 64 0 1) with (Some (2 ^ 64 - 1)). cbv iota.
      destruct (nth_error rows (N.to_nat (2 ^ 64 - 1))) eqn:E; [|eexists; reflexivity].
      exfalso. assert (Hn : nth_error rows (N.to_nat (2 ^ 64 - 1)) <> None) by congruence.
      apply nth_error_Some in Hn. unfold len in Hl. rewrite pow63 in Hl.
      change (2 ^ 64 - 1) with 18446744073709551615 in Hn. lia.
  - intros x r H. cbn [handle_of_position]. apply C27_handle_index; [lia|].
    replace (x + 1 - 1) with x by lia. exact H.
Qed.
Print Assumptions C27_position_round_trip_refuted.

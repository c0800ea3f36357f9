(** Reading the image where it lies in memory: C87, and bytes that are not values: C88. *)
From Coq Require Import NArith ZArith String List Bool Lia.
From Coq.Strings Require Import Byte.
From Verif Require Import Base BinaryReader ParseSpec BaseFacts ReaderFacts SpecBytes SpecUtf Pe SpecPe PeProofs Attributes SpecAttributes Tables SpecTables TablesApi TablesProofs.
From Verif Require Import Blob SpecBlob BlobProofs PropsBlob PropsPe PropsTables.
From Verif Require Import Aligned SpecImageAlign AlignedFacts.
Import ListNotations.
Open Scope N_scope.

(** ** Tables *)

(** A row of any table is read correctly if all its columns are aligned, and the read is undefined if one is
    not.  (The other hypotheses are those of C25.) *)
Theorem C87_row p flags counts sz r cs bs :
  row_columns r cs -> columns_bytes sz cs bs ->
  counts_in counts (rows sz) -> (forall k, settled (rows sz) k) -> Forall supported cs ->
  N.testbit flags 0 = big_strings sz -> N.testbit flags 1 = big_guids sz -> N.testbit flags 2 = big_blobs sz ->
  forall base pre rest, slice_ok (pre ++ bs ++ rest) ->
  let run := row_reader_at base (row_table r) p (make_env flags counts) (mkReader (pre ++ bs ++ rest) (len pre)) in
  let parts := map number (map (column_width sz) cs) in
  (suits (base + len pre) parts -> run = Ok r (mkReader (pre ++ bs ++ rest) (len pre + len bs))) /\
  (~ suits (base + len pre) parts -> run = Ub misaligned).
Proof.
  intros Hr Hb Hc Hk Hsup H0 H1 H2 base pre rest Hs run parts.
  assert (M : env_matches (make_env flags counts) sz).
  { apply make_env_matches; try assumption; [apply counts_in_match; exact Hc|..].
    - exact (has_testbit flags 0 _ H0).
    - exact (has_testbit flags 1 _ H1).
    - exact (has_testbit flags 2 _ H2). }
  assert (P : parses_at (fun base => row_reader_at base (row_table r) p (make_env flags counts)) bs r parts).
  { unfold parts. rewrite (row_widths sz r cs Hr), <- (env_widths_matches _ sz (row_table r) M).
    eapply parses_at_of; [apply reads_row|eapply parses_row; eassumption|].
    rewrite (env_widths_matches _ sz (row_table r) M).
    assert (R : rows_bytes sz [r] (bs ++ [])) by (eapply rows_cons; [exact Hr|exact Hb|constructor]).
    pose proof (rows_size sz _ _ R ltac:(intros; now apply row_widths)) as L. rewrite app_nil_r in L. rewrite L.
    cbn [flat_map]. now rewrite app_nil_r. }
  destruct P as [_ P]. specialize (P base pre rest Hs). subst run. rewrite P.
  split; intro S; [apply suits_b_spec in S; now rewrite S|].
  destruct (suits_b (base + len pre) parts) eqn:B; [|reflexivity]. apply suits_b_spec in B. contradiction.
Qed.

Lemma stream_parses p T bs strings guids blobs r1 r2 (valid : table -> bool) sorted body :
  len r1 = 6 -> sorted < 2 ^ 64 -> (forall t, valid t = false -> rows_of T t = []) -> (forall t, len (rows_of T t) < 2 ^ 32) ->
  tables_bytes (sizes_of strings guids blobs T) T ecma_tables body ->
  bs = r1 ++ [nb (bit strings 0 + bit guids 1 + bit blobs 2)] ++ [r2] ++ le_enc 8 (mask_of (listed_tables valid)) ++ le_enc 8 sorted ++
       flat_map (fun it => le_enc 4 (len (rows_of T (snd it)))) (listed_tables valid) ++ body ->
  (forall k, settled (fun t => len (rows_of T t)) k) ->
  (forall x, In x (tb_custom_attribute T) -> ref_table (ca_parent x) <> TDeclSecurity) ->
  parses_at (fun base => read_table_stream_at base p) bs T (stream_parts (sizes_of strings guids blobs T) (len (listed_tables valid)) T).
Proof.
  intros L1 Lsort Hv Hcnt Hbody Hbs Hset Hsup.
  set (flags := bit strings 0 + bit guids 1 + bit blobs 2) in *.
  assert (Hfl : flags < 8) by (unfold flags; destruct strings, guids, blobs; reflexivity).
  subst bs. unfold read_table_stream_at. cbv zeta.
    destruct (listed_counts valid (fun t => len (rows_of T t))) as [Hones Hcounts].
    { intros t Ht. rewrite (Hv t Ht). reflexivity. }
    unfold stream_parts. match goal with |- parses_at _ _ _ ?l => let l' := eval cbn [app] in l in change l with l' end.
    apply (parses_at_skip p 6); [exact L1|].
    eapply (parses_at_bind (fun base => rd_at base p 1 _) _ [nb flags] _ flags _ [(1, 1)]).
    { apply (parses_at_of _ (rd p 1 "Invalid metadata header")); [apply reads_rd| |reflexivity].
      change [nb flags] with (le_enc (N.to_nat 1) flags). apply parses_rd. change (256 ^ 1) with 256. lia. }
    apply parses_at_ok_or with flags.
    { unfold heap_size_flags. apply N.ltb_lt in Hfl. rewrite Hfl. reflexivity. }
    apply (parses_at_skip p 1); [reflexivity|].
    eapply (parses_at_bind (fun base => rd_at base p 8 _) _ (le_enc 8 _) _ _ _ [number 8]).
    { apply (parses_at_of _ (rd p 8 "Invalid metadata header")); [apply reads_rd| |reflexivity].
      change 8%nat with (N.to_nat 8). apply parses_rd. apply listed_mask_bound. }
    eapply (parses_at_bind (fun base => rd_at base p 8 _) _ (le_enc 8 _) _ _ _ [number 8]).
    { apply (parses_at_of _ (rd p 8 "Invalid metadata header")); [apply reads_rd| |reflexivity].
      change 8%nat with (N.to_nat 8). apply parses_rd. exact Lsort. }
    rewrite Hones.
    set (F := flat_map _ (listed_tables valid)).
    assert (LF : len F = len (listed_tables valid) * 4) by (unfold F; apply len_flat_le_enc).
    (* the row counts *)
    assert (A : forall (k' : N -> list byte -> M reader tables) bs' l', parses_at (fun base => k' base F) bs' T l' ->
      parses_at (fun base => raw <- read_array_at 4 base p 4 (len (listed_tables valid)) ;; raw <- ok_or raw "Invalid metadata header" ;; k' base raw)
        (F ++ bs') T ((4 * len (listed_tables valid), 4) :: l')).
    { intros k' bs' l' H. change ((4 * len (listed_tables valid), 4) :: l') with ([(4 * len (listed_tables valid), 4)] ++ l').
      apply (parses_at_bind (fun base => read_array_at 4 base p 4 (len (listed_tables valid)))
        (fun base o => raw <- ok_or o "Invalid metadata header" ;; k' base raw) F bs' (Some F)); [|exact H].
      split; [unfold total_size; cbn [map fst fold_right]; lia|]. intros base pre rest Hs. unfold read_array_at, typed.
      pose proof (parses_read_array p 4 (len (listed_tables valid)) F LF pre rest Hs) as R. rewrite R. cbn [rpos].
      rewrite suits_b_one. reflexivity. }
    apply A. rewrite to_nat_len.
    unfold F. rewrite (chunks_flat (fun it => len (rows_of T (snd it)))) by (intros x _; apply Hcnt).
    assert (M : env_matches (make_env flags (spread (mask_of (listed_tables valid)) 0 64 (map (fun it => len (rows_of T (snd it))) (listed_tables valid)))) (sizes_of strings guids blobs T)).
    { apply make_env_matches.
      - exact Hcounts.
      - intro k. apply Hset.
      - unfold flags; destruct strings, guids, blobs; reflexivity.
      - unfold flags; destruct strings, guids, blobs; reflexivity.
      - unfold flags; destruct strings, guids, blobs; reflexivity. }
    rewrite <- (all_parts_matches _ _ T M Hcounts).
    eapply parses_at_of; [apply reads_tables|eapply parses_tables; [exact M|exact Hcounts|exact Hsup|exact Hbody]|].
    rewrite (all_parts_matches _ _ T M Hcounts). symmetry. exact (tables_size _ _ _ _ Hbody).
Qed.

(** The whole stream is read correctly if all its parts are aligned, and the read is undefined if one is not.
    (The other hypotheses are those of C26.) *)
Theorem C87_stream p T bs :
  stream_bytes T bs -> (forall k, settled (fun t => len (rows_of T t)) k) ->
  (forall x, In x (tb_custom_attribute T) -> ref_table (ca_parent x) <> TDeclSecurity) ->
  exists strings guids blobs listed,
    nth_error bs 6 = Some (nb (bit strings 0 + bit guids 1 + bit blobs 2)) /\
    let parts := stream_parts (sizes_of strings guids blobs T) listed T in
    len bs = fold_right N.add 0 (map fst parts) /\
    forall base pre rest, slice_ok (pre ++ bs ++ rest) ->
      let run := read_table_stream_at base p (mkReader (pre ++ bs ++ rest) (len pre)) in
      (suits (base + len pre) parts -> run = Ok T (mkReader (pre ++ bs ++ rest) (len pre + len bs))) /\
      (~ suits (base + len pre) parts -> run = Ub misaligned).
Proof.
  intros (strings & guids & blobs & r1 & r2 & valid & sorted & body & L1 & Lsort & Hv & Hcnt & Hbody & Hbs) Hset Hsup.
  exists strings, guids, blobs, (len (listed_tables valid)).
  pose proof (stream_parses p T bs _ _ _ _ _ _ _ _ L1 Lsort Hv Hcnt Hbody Hbs Hset Hsup) as P.
  split.
  { rewrite Hbs. rewrite nth_error_app2 by (unfold len in L1; lia). replace (6 - List.length r1)%nat with 0%nat by (unfold len in L1; lia). reflexivity. }
  cbv zeta. revert P. generalize (stream_parts (sizes_of strings guids blobs T) (len (listed_tables valid)) T) as parts. intros parts [LP P].
  split; [symmetry; exact LP|]. intros base pre rest Hs. rewrite (P base pre rest Hs).
  split; intro S; [apply suits_b_spec in S; now rewrite S|].
  destruct (suits_b (base + len pre) parts) eqn:B; [|reflexivity]. apply suits_b_spec in B. contradiction.
Qed.

(** *** Rows that are never aligned *)

Lemma suits_app l1 : forall a l2, suits a (l1 ++ l2) <-> suits a l1 /\ suits (a + total_size l1) l2.
Proof. intros a l2. rewrite <- !suits_b_spec, suits_b_app, andb_true_iff. tauto. Qed.
Lemma row_total sz t : total_size (row_parts sz t) = row_size sz t.
Proof. unfold total_size, row_parts, row_size. rewrite map_map. cbn [number fst]. now rewrite map_id. Qed.
Lemma suits_column_at w ws : In w ws -> exists d, forall a, suits a (map number ws) -> (a + d) mod w = 0.
Proof.
  intro Hin. apply in_split in Hin as (w1 & w2 & ->). exists (total_size (map number w1)). intros a S.
  rewrite map_app in S. apply suits_app in S as [_ S]. cbn [map suits number] in S. tauto.
Qed.
Lemma suits_flat {X} (f : X -> list (N * N)) l1 x l2 a : suits a (flat_map f (l1 ++ x :: l2)) ->
  exists b, suits b (f x) /\ b = a + total_size (flat_map f l1).
Proof.
  rewrite flat_map_app. cbn [flat_map]. rewrite suits_app. intros [_ S]. apply suits_app in S as [S _]. eauto.
Qed.
Lemma tables_two sz T t a : suits a (tables_parts sz T) -> 2 <= len (rows_of T t) ->
  exists b, suits b (row_parts sz t) /\ suits (b + row_size sz t) (row_parts sz t).
Proof.
  intros S L. assert (I : In (table_id t, t) ecma_tables) by apply ecma_complete.
  apply in_split in I as (l1 & l2 & E). unfold tables_parts in S. rewrite E in S. apply suits_flat in S as (b & S & _). cbn [snd] in S.
  destruct (rows_of T t) as [|x [|y l]]; [unfold len in L; cbn in L; lia|unfold len in L; cbn in L; lia|]. cbn [flat_map] in S.
  apply suits_app in S as [S1 S2]. apply suits_app in S2 as [S2 _]. rewrite row_total in S2. eauto.
Qed.
Lemma flags_unique s g b s' g' b' : nb (bit s 0 + bit g 1 + bit b 2) = nb (bit s' 0 + bit g' 1 + bit b' 2) -> s = s' /\ g = g' /\ b = b'.
Proof. intro E. destruct s, g, b, s', g', b'; first [discriminate E|repeat split]. Qed.

Lemma rows_never_suit sz T t w a : 2 <= len (rows_of T t) -> In w (widths sz t) -> row_size sz t mod w <> 0 ->
  ~ suits a (tables_parts sz T).
Proof.
  intros L Hin Hm S.
  destruct (tables_two _ _ t _ S L) as (c & S1 & S2).
  destruct (suits_column_at w _ Hin) as (d & D). pose proof (D _ S1) as D1. pose proof (D _ S2) as D2. apply Hm.
  assert (W : w <> 0).
  { intros ->. assert (X : forall n, In 0 (widths sz n) -> False).
    { intros n Hn. destruct n; cbn [widths In] in Hn; unfold heap_width, index_width, coded_width in Hn;
        repeat match type of Hn with
               | _ \/ _ => destruct Hn as [Hn|Hn]
               | (if ?c then _ else _) = 0 => destruct c; discriminate Hn
               | _ = 0 => discriminate Hn
               | False => exact Hn
               end. }
    exact (X t Hin). }
  apply N.mod_divide in D1, D2; [|exact W|exact W]. apply N.mod_divide; [exact W|].
  destruct D1 as (x & D1), D2 as (y & D2). exists (y - x). rewrite N.mul_sub_distr_r. lia.
Qed.

(** If a table has a column of [w] bytes and rows whose size is not a multiple of [w], then two rows of it
    cannot both be aligned: reading the stream is undefined wherever it is. *)
Theorem C87_rows_refuted p T bs strings guids blobs t w :
  stream_bytes T bs -> (forall k, settled (fun t => len (rows_of T t)) k) ->
  (forall x, In x (tb_custom_attribute T) -> ref_table (ca_parent x) <> TDeclSecurity) ->
  nth_error bs 6 = Some (nb (bit strings 0 + bit guids 1 + bit blobs 2)) ->
  let sz := sizes_of strings guids blobs T in
  2 <= len (rows_of T t) -> In w (widths sz t) -> row_size sz t mod w <> 0 ->
  forall base pre rest, slice_ok (pre ++ bs ++ rest) ->
  read_table_stream_at base p (mkReader (pre ++ bs ++ rest) (len pre)) = Ub misaligned.
Proof.
  intros Hb Hset Hsup H6 sz L Hin Hm base pre rest Hs.
  destruct (C87_stream p T bs Hb Hset Hsup) as (s & g & b & listed & H6' & H). rewrite H6 in H6'. injection H6' as H6'.
  apply flags_unique in H6' as (<- & <- & <-). cbv zeta in H. destruct H as [_ H].
  destruct (H base pre rest Hs) as [_ U]. apply U. clear U H. intro S. unfold stream_parts in S. apply suits_app in S as [_ S].
  exact (rows_never_suit _ T t w _ L Hin Hm S).
Qed.

Lemma usual_rows sz t : narrow sz ->
  In t [TTypeDef; TMethodDef; TFieldLayout; TFieldRva; TAssembly; TAssemblyRefProcessor; TAssemblyRefOs; TExportedType] ->
  In 4 (widths sz t) /\ row_size sz t mod 4 <> 0.
Proof.
  intros (N1 & N2 & N3 & N4 & N5) Hin. unfold row_size. cbn [In] in Hin.
  repeat (destruct Hin as [<-|Hin]; [cbn [widths]; unfold heap_width; rewrite ?N1, ?N2, ?N3, ?N4, ?N5; cbn; split; [tauto|discriminate]|]); destruct Hin.
Qed.

(** In particular: if all offsets and row numbers are stored in two bytes, as in every file that is not very
    large, then it is enough that there are two type definitions (every file has one for <Module>, II.22.37), two
    methods or two exported types, for instance. *)
Theorem C87_usual_refuted p T bs strings guids blobs t :
  stream_bytes T bs -> (forall k, settled (fun t => len (rows_of T t)) k) ->
  (forall x, In x (tb_custom_attribute T) -> ref_table (ca_parent x) <> TDeclSecurity) ->
  nth_error bs 6 = Some (nb (bit strings 0 + bit guids 1 + bit blobs 2)) ->
  narrow (sizes_of strings guids blobs T) ->
  In t [TTypeDef; TMethodDef; TFieldLayout; TFieldRva; TAssembly; TAssemblyRefProcessor; TAssemblyRefOs; TExportedType] ->
  2 <= len (rows_of T t) ->
  forall base pre rest, slice_ok (pre ++ bs ++ rest) ->
  read_table_stream_at base p (mkReader (pre ++ bs ++ rest) (len pre)) = Ub misaligned.
Proof.
  intros Hb Hset Hsup H6 Hn Hin L. destruct (usual_rows _ t Hn Hin) as [I M].
  exact (C87_rows_refuted p T bs strings guids blobs t 4 Hb Hset Hsup H6 L I M).
Qed.

(** Two fields with initial data: a row count and two rows of 6 bytes. *)
Definition two_rows : tables :=
  {| tb_module := []; tb_type_ref := []; tb_type_def := []; tb_field := []; tb_method_def := []; tb_param := []; tb_interface_impl := []; tb_member_ref := []; tb_constant := []; tb_custom_attribute := []; tb_field_marshal := []; tb_decl_security := []; tb_class_layout := []; tb_field_layout := []; tb_standalone_sig := []; tb_event_map := []; tb_event := []; tb_property_map := []; tb_property := []; tb_method_semantics := []; tb_method_impl := []; tb_module_ref := []; tb_type_spec := []; tb_impl_map := []; tb_field_rva := [{| fr_rva := 0x2050; fr_field := 1 |}; {| fr_rva := 0x2060; fr_field := 2 |}]; tb_assembly := []; tb_assembly_processor := []; tb_assembly_os := []; tb_assembly_ref := []; tb_assembly_ref_processor := []; tb_assembly_ref_os := []; tb_file := []; tb_exported_type := []; tb_manifest_resource := []; tb_nested_class := []; tb_generic_param := []; tb_method_spec := []; tb_generic_param_constraint := [] |}.
Definition two_rows_bytes : list byte :=
  [x00; x00; x00; x00; x02; x00] ++ [x00] ++ [x01] ++ [x00; x00; x00; x20; x00; x00; x00; x00] ++ repeat x00 8 ++
  [x02; x00; x00; x00] ++ ([x50; x20; x00; x00] ++ [x01; x00] ++ []) ++ ([x60; x20; x00; x00] ++ [x02; x00] ++ []).

Lemma two_rows_stream : stream_bytes two_rows two_rows_bytes.
Proof.
  exists false, false, false, [x00; x00; x00; x00; x02; x00], x01, (fun t => match t with TFieldRva => true | _ => false end), 0,
    (([x50; x20; x00; x00] ++ [x01; x00] ++ []) ++ ([x60; x20; x00; x00] ++ [x02; x00] ++ []) ++ []).
  split; [reflexivity|]. split; [reflexivity|]. split; [intros t Ht; destruct t; try discriminate Ht; reflexivity|].
  split; [intro t; destruct t; reflexivity|]. split; [|reflexivity].
  unfold ecma_tables. do 24 (rewrite <- app_nil_l; apply tabs_cons; [constructor|]).
  match goal with |- tables_bytes _ _ _ ?b => rewrite <- (app_nil_r b) end. apply tabs_cons.
  - cbn [rows_of two_rows tb_field_rva map].
    eapply rows_cons; [constructor| |eapply rows_cons; [constructor| |constructor]];
      repeat apply cols_cons; try apply cols_nil; eexists; (split; [reflexivity|split; reflexivity]).
  - do 13 (rewrite <- app_nil_l; apply tabs_cons; [constructor|]). constructor.
Qed.
Lemma two_rows_settled k : settled (fun t => len (rows_of two_rows t)) k.
Proof.
  left. intros tag t _. apply N.lt_le_trans with 4; [destruct t; reflexivity|destruct k; discriminate].
Qed.
Example C87_row_example : exists cs, row_columns (RFieldRva {| fr_rva := 0x2050; fr_field := 1 |}) cs /\
  columns_bytes (sizes_of false false false two_rows) cs [x50; x20; x00; x00; x01; x00] /\
  Forall supported cs /\ suits 8 (map number (map (column_width (sizes_of false false false two_rows)) cs)) /\
  ~ suits 14 (map number (map (column_width (sizes_of false false false two_rows)) cs)).
Proof.
  exists [CInt 4 0x2050; CRow TField 1]. split; [constructor|]. split.
  { change [x50; x20; x00; x00; x01; x00] with ([x50; x20; x00; x00] ++ [x01; x00] ++ []).
    repeat apply cols_cons; try apply cols_nil; eexists; (split; [reflexivity|split; reflexivity]). }
  split; [repeat constructor|]. split; [vm_compute; tauto|vm_compute; intros [H _]; discriminate H].
Qed.
Example C87_stream_example : stream_bytes two_rows two_rows_bytes /\ (forall k, settled (fun t => len (rows_of two_rows t)) k) /\
  (forall x, In x (tb_custom_attribute two_rows) -> ref_table (ca_parent x) <> TDeclSecurity) /\
  ~ suits 0 (stream_parts (sizes_of false false false two_rows) 1 two_rows) /\
  suits 0 (stream_parts (sizes_of false false false two_rows) 1 (refs_and_attribute 3 (mkRef TModuleRef 2))).
Proof.
  split; [exact two_rows_stream|]. split; [exact two_rows_settled|]. split; [intros x []|]. split.
  - vm_compute. intros H. repeat (destruct H as [? H]; try discriminate).
  - vm_compute. repeat split.
Qed.
Example C87_rows_refuted_example : 2 <= len (rows_of two_rows TFieldRva) /\ In 4 (widths (sizes_of false false false two_rows) TFieldRva) /\
  row_size (sizes_of false false false two_rows) TFieldRva mod 4 <> 0 /\
  nth_error two_rows_bytes 6 = Some (nb (bit false 0 + bit false 1 + bit false 2)).
Proof. split; [discriminate|]. split; [now left|]. split; [discriminate|reflexivity]. Qed.
Example C87_usual_refuted_example : narrow (sizes_of false false false two_rows) /\
  forall p base, read_table_stream_at base p (mkReader two_rows_bytes 0) = Ub misaligned.
Proof.
  assert (Nr : narrow (sizes_of false false false two_rows)).
  { repeat split; [intro t|intro k]; [destruct t|destruct k]; reflexivity. }
  split; [exact Nr|]. intros p base.
  pose proof (C87_usual_refuted p two_rows two_rows_bytes false false false TFieldRva two_rows_stream two_rows_settled ltac:(intros x []) eq_refl Nr
    ltac:(cbn; tauto) ltac:(discriminate) base [] [] ltac:(reflexivity)) as H. rewrite app_nil_r in H. exact H.
Qed.

(** ** Headers *)

Lemma typed_some a base m r d r' : m r = Ok (Some d) r' ->
  typed a base m r = if (base + rpos r) mod a =? 0 then Ok (Some d) r' else Ub misaligned.
Proof. intro E. unfold typed. now rewrite E. Qed.
Lemma peek_array_stays p sz cnt r o r' : peek_array p sz cnt r = Ok o r' -> r' = r.
Proof.
  unfold peek_array. destruct (u_mul _ _ _ _); [|discriminate]. destruct (u_add _ _ _ _); [|discriminate].
  destruct (_ <=? _); [now injection 1|]. destruct (_ <? rpos r); [discriminate|]. destruct (_ <? _ + _); [discriminate|]. now injection 1.
Qed.
Lemma peek_stays p n r o r' : peek p n r = Ok o r' -> r' = r.
Proof.
  unfold peek. destruct (u_add _ _ _ _); [|discriminate].
  destruct (_ <? _); [now injection 1|]. destruct (_ <? rpos r); [discriminate|]. destruct (_ <? _ + _); [discriminate|]. now injection 1.
Qed.
Lemma read_array_inv p sz cnt r d r' : slice_ok (rdata r) -> cnt * sz < 2 ^ 64 -> rpos r + cnt * sz < 2 ^ 64 ->
  read_array p sz cnt r = Ok (Some d) r' -> rpos r + cnt * sz <= len (rdata r) /\ r' = mkReader (rdata r) (rpos r + cnt * sz).
Proof.
  intros Hs Hm Hb E. destruct (N.le_gt_cases (rpos r + cnt * sz) (len (rdata r))) as [L|L].
  - rewrite read_array_ok in E by assumption. injection E; intros; subst. auto.
  - rewrite read_array_none in E by assumption. discriminate E.
Qed.
Lemma mod_shift base x y k a : a <> 0 -> x = y + k * a -> (base + x) mod a = (base + y) mod a.
Proof. intros A ->. rewrite N.add_assoc. now apply N.mod_add. Qed.
Lemma mod_weaken x a b : a <> 0 -> b <> 0 -> x mod (a * b) = 0 -> x mod a = 0.
Proof. intros A B H. apply N.mod_divide in H; [|lia]. apply N.mod_divide; [exact A|]. destruct H as (q & ->). exists (q * b). lia. Qed.
Lemma peek_some p n r d : slice_ok (rdata r) -> rpos r + n < 2 ^ 64 -> peek p n r = Ok (Some d) r ->
  rpos r + n <= len (rdata r) /\ d = sub_list (rpos r) n (rdata r).
Proof.
  intros Hs Hb E. destruct (N.le_gt_cases (rpos r + n) (len (rdata r))) as [L|L].
  - rewrite peek_ok in E by assumption. injection E as <-. auto.
  - rewrite peek_none in E by assumption. discriminate E.
Qed.

Lemma fld_u32 d off : fld d off 4 < 2 ^ 32.
Proof.
  unfold fld. apply N.lt_le_trans with (1 := le_dec_bound _).
  change (2 ^ 32) with (256 ^ 4). apply N.pow_le_mono_r; [discriminate|]. unfold sub_list, len. rewrite firstn_length. lia.
Qed.

(** If a file has the headers of a PE file, then reading them is defined exactly if the file starts at a
    multiple of 4 and its PE header at a multiple of 4, or of 8 if it is of the 64-bit kind. *)
Theorem C87_headers p data pi r : slice_ok data -> parse_pe p data = Ok pi r ->
  exists lfanew, u_at data 0x3c 4 lfanew /\ forall base,
    let fits := base mod 4 = 0 /\ (base + lfanew) mod (if o_pe64 (pi_optional_header pi) then 8 else 4) = 0 in
    (fits -> parse_pe_at base p data = Ok pi r) /\ (~ fits -> parse_pe_at base p data = Ub misaligned).
Proof.
  intros Hs E. pose proof Hs as Hl. unfold slice_ok in Hl. rewrite pow63 in Hl.
  unfold parse_pe, parse_pe_m in E. set (r0 := new_reader data) in *.
  apply bind_inv_ok in E as (mz & r1 & E1 & E). pose proof (peek_array_stays _ _ _ _ _ _ E1) as ->.
  apply bind_inv_ok in E as ([] & r2 & E2 & E).
  destruct (negb (opt_bytes_eqb mz MZ)) eqn:Mz; [discriminate E2|]. injection E2 as <-.
  apply bind_inv_ok in E as (g & r3 & E3 & E). change (goto 60 r0) with (Ok (60 <=? len data) (mkReader data 60)) in E3. injection E3 as _ <-.
  apply bind_inv_ok in E as ([o|] & r4 & E4 & E); [|discriminate E]. pose proof (peek_stays _ _ _ _ _ E4) as ->.
  destruct (peek_some p 4 (mkReader data 60) o Hs ltac:(reflexivity) E4) as [L4 D4]. cbn [rdata rpos] in L4, D4.
  set (l := le_dec o) in *.
  assert (Bl : l < 2 ^ 32).
  { unfold l. replace (2 ^ 32) with (256 ^ len o); [apply le_dec_bound|]. rewrite D4, len_sub_list by lia. reflexivity. }
  rewrite pow32 in Bl.
  apply bind_inv_ok in E as (g5 & r5 & E5 & E). change (goto l (mkReader data 60)) with (Ok (l <=? len data) (mkReader data l)) in E5. injection E5 as _ <-.
  apply bind_inv_ok in E as (sig & r6 & E6 & E). apply bind_inv_ok in E as ([] & r7 & E7 & E).
  destruct (negb (opt_bytes_eqb sig PE00)) eqn:Sg; [discriminate E7|]. injection E7 as <-.
  destruct sig as [sig|]; [|discriminate Sg].
  destruct (read_array_inv p 1 4 (mkReader data l) sig r6 Hs ltac:(reflexivity) ltac:(cbn [rpos]; rewrite pow64; lia) E6) as [L6 ->]. cbn [rdata rpos] in *.
  change (4 * 1) with 4 in *.
  apply bind_inv_ok in E as ([h|] & r8 & E8 & E); [|discriminate E].
  destruct (read_inv p PE_HEADER_SIZE (mkReader data (l + 4)) _ _ Hs ltac:(cbn [rpos]; unfold PE_HEADER_SIZE; rewrite pow64; lia) E8) as (L8 & -> & _). cbn [rdata rpos] in *.
  apply bind_inv_ok in E as (h' & r9 & E9 & E). injection E9 as <- <-.
  cbv zeta in E. apply bind_inv_ok in E as ([mg|] & r10 & E10 & E); [|discriminate E]. pose proof (peek_stays _ _ _ _ _ E10) as ->.
  apply bind_inv_ok in E as (mg' & r11 & E11 & E). injection E11 as <- <-.
  apply bind_inv_ok in E as (opt & r12 & E12 & E).
  unfold PE_HEADER_SIZE in *.
  (* the optional header *)
  assert (O : rdata r12 = data /\ rpos r12 = l + 24 + (if o_pe64 opt then 112 else 96) /\ o_number_of_data_directories opt < 2 ^ 32 /\
    forall base, (if le_dec mg =? 0x10b then o <- read_at 4 base p PE32_SIZE ;; o <- ok_or o "Invalid PE file" ;; ret (dec_pe32 o)
      else if le_dec mg =? 0x20b then o <- read_at 8 base p PE64_SIZE ;; o <- ok_or o "Invalid PE file" ;; ret (dec_pe64 o)
      else fail "Invalid PE file") (mkReader data (l + 4 + 20)) =
      if (base + l) mod (if o_pe64 opt then 8 else 4) =? 0 then Ok opt r12 else Ub misaligned).
  { destruct (le_dec mg =? 0x10b).
    - apply bind_inv_ok in E12 as ([d|] & r13 & E13 & E12); [|discriminate E12]. injection E12 as <- <-.
      destruct (read_inv p PE32_SIZE (mkReader data (l + 4 + 20)) _ _ Hs ltac:(cbn [rpos]; unfold PE32_SIZE; rewrite pow64; lia) E13) as (_ & -> & _).
      cbn [rdata rpos o_pe64 dec_pe32 o_number_of_data_directories]. split; [reflexivity|]. split; [unfold PE32_SIZE; lia|].
      split; [apply fld_u32|]. intro base. unfold bind, read_at.
      rewrite (typed_some _ _ _ _ _ _ E13). cbn [rpos]. rewrite (mod_shift base (l + 4 + 20) l 6 4); [|discriminate|lia]. now destruct (_ =? 0).
    - destruct (le_dec mg =? 0x20b); [|discriminate E12].
      apply bind_inv_ok in E12 as ([d|] & r13 & E13 & E12); [|discriminate E12]. injection E12 as <- <-.
      destruct (read_inv p PE64_SIZE (mkReader data (l + 4 + 20)) _ _ Hs ltac:(cbn [rpos]; unfold PE64_SIZE; rewrite pow64; lia) E13) as (_ & -> & _).
      cbn [rdata rpos o_pe64 dec_pe64 o_number_of_data_directories]. split; [reflexivity|]. split; [unfold PE64_SIZE; lia|].
      split; [apply fld_u32|]. intro base. unfold bind, read_at.
      rewrite (typed_some _ _ _ _ _ _ E13). cbn [rpos]. rewrite (mod_shift base (l + 4 + 20) l 3 8); [|discriminate|lia]. now destruct (_ =? 0). }
  clear E12. destruct O as (D12 & P12 & N12 & O). rewrite pow32 in N12.
  apply bind_inv_ok in E as ([dirs|] & r14 & E14 & E); [|discriminate E].
  apply bind_inv_ok in E as (dirs' & r15 & E15 & E). injection E15 as <- <-.
  apply bind_inv_ok in E as ([secs|] & r16 & E16 & E); [|discriminate E].
  apply bind_inv_ok in E as (secs' & r17 & E17 & E). injection E17 as <- <-. injection E as <- <-.
  set (nd := o_number_of_data_directories opt) in *.
  assert (P14 : rpos r14 = rpos r12 + nd * 8).
  { destruct (read_array_inv p RVA_AND_SIZE_SIZE nd r12 dirs r14) as [_ ->]; [now rewrite D12| | |exact E14|reflexivity];
      unfold RVA_AND_SIZE_SIZE; rewrite pow64; [lia|]. rewrite P12. destruct (o_pe64 opt); lia. }
  exists l. split.
  { apply u_at_iff. split; [exact L4|]. unfold l. now rewrite D4. }
  intro base. cbn [pi_optional_header]. cbv zeta.
  set (pi := {| pi_header := _ |}).
  assert (F : parse_pe_at base p data =
    if base mod 4 =? 0 then
      if (base + l) mod 4 =? 0 then
        if (base + l) mod (if o_pe64 opt then 8 else 4) =? 0 then Ok pi r16 else Ub misaligned
      else Ub misaligned
    else Ub misaligned).
  { assert (B1 : (base + 60) mod 4 = base mod 4) by (rewrite (mod_shift base 60 0 15 4), N.add_0_r; [reflexivity|discriminate|reflexivity]).
    assert (B2 : (base + (l + 4)) mod 4 = (base + l) mod 4) by (apply (mod_shift _ _ _ 1); [discriminate|lia]).
    assert (B3 : (base + l) mod 4 = 0 -> (base + (l + 4 + 20)) mod 2 =? 0 = true).
    { intro H. apply N.eqb_eq. rewrite (mod_shift base _ l 12 2); [|discriminate|lia]. exact (mod_weaken _ 2 2 ltac:(discriminate) ltac:(discriminate) H). }
    assert (B4 : (base + l) mod 4 = 0 -> (base + rpos r12) mod 4 =? 0 = true).
    { intro H. apply N.eqb_eq. rewrite P12. rewrite (mod_shift base _ l (if o_pe64 opt then 34 else 30) 4); [exact H|discriminate|destruct (o_pe64 opt); lia]. }
    assert (B5 : (base + l) mod 4 = 0 -> (base + rpos r14) mod 4 =? 0 = true).
    { intro H. apply N.eqb_eq. rewrite P14. rewrite (mod_shift base _ (rpos r12) (nd * 2) 4); [apply N.eqb_eq, B4, H|discriminate|lia]. }
    unfold parse_pe_at, parse_pe_m_at. fold r0.
    unfold bind at 1. rewrite E1. unfold bind at 1. rewrite Mz. cbn [ret].
    unfold bind at 1. change (goto 60 r0) with (@Ok reader bool (60 <=? len data) (mkReader data 60)). cbv iota beta.
    unfold bind at 1. unfold peek_at at 1. rewrite (typed_some _ _ _ _ _ _ E4). cbn [rpos]. rewrite B1.
    destruct (base mod 4 =? 0); [|reflexivity]. cbv iota beta.
    unfold bind at 1. change (goto (le_dec o) (mkReader data 60)) with (@Ok reader bool (l <=? len data) (mkReader data l)). cbv iota beta.
    unfold bind at 1. rewrite E6. cbv iota beta. unfold bind at 1. rewrite Sg. cbn [ret].
    unfold bind at 1. unfold read_at at 1. rewrite (typed_some _ _ _ _ _ _ E8). cbn [rpos]. rewrite B2.
    destruct ((base + l) mod 4 =? 0) eqn:E2; [|reflexivity]. apply N.eqb_eq in E2. cbv iota beta.
    unfold bind at 1. cbn [ok_or ret]. cbv zeta.
    unfold bind at 1. unfold peek_at at 1. rewrite (typed_some _ _ _ _ _ _ E10). cbn [rpos]. rewrite (B3 E2). cbv iota beta.
    unfold bind at 1. cbn [ok_or ret].
    unfold bind at 1. rewrite O.
    destruct ((base + l) mod (if o_pe64 opt then 8 else 4) =? 0); [|reflexivity]. cbv iota beta.
    unfold bind at 1. unfold read_array_at at 1. fold nd. rewrite (typed_some _ _ _ _ _ _ E14). rewrite (B4 E2). cbv iota beta.
    unfold bind at 1. cbn [ok_or ret].
    unfold bind at 1. unfold read_array_at at 1. rewrite (typed_some _ _ _ _ _ _ E16). rewrite (B5 E2). cbv iota beta.
    reflexivity. }
  rewrite F. split.
  - intros [H1 H2]. rewrite H1, H2. cbn [N.eqb].
    assert (H3 : (base + l) mod 4 = 0).
    { destruct (o_pe64 opt); [|exact H2]. exact (mod_weaken _ 4 2 ltac:(discriminate) ltac:(discriminate) H2). }
    now rewrite H3.
  - intro H. destruct (base mod 4 =? 0) eqn:H1; [|reflexivity]. destruct ((base + l) mod 4 =? 0); [|reflexivity].
    destruct ((base + l) mod (if o_pe64 opt then 8 else 4) =? 0) eqn:H2; [|reflexivity].
    exfalso. apply H. split; now apply N.eqb_eq.
Qed.
Example C87_headers_example : slice_ok tiny_pe /\ u_at tiny_pe 0x3c 4 64 /\
  match parse_pe Debug tiny_pe with
  | Ok pi r => o_pe64 (pi_optional_header pi) = false /\ parse_pe_at 4096 Debug tiny_pe = Ok pi r /\ parse_pe_at 4098 Debug tiny_pe = Ub misaligned
  | _ => False
  end.
Proof.
  split; [reflexivity|]. split; [apply u_at_iff; split; [vm_compute; discriminate|reflexivity]|].
  vm_compute. auto.
Qed.

(** ** Blobs *)

(** A compressed number is read correctly if its address is a multiple of its length, and the read is undefined
    otherwise. *)
Theorem C87_compressed p r v r' base : in_bounds r -> read_compressed_u32 p r = Ok v r' ->
  let fits := (base + rpos r) mod (rpos r' - rpos r) = 0 in
  (fits -> read_compressed_u32_at base p r = Ok v r') /\ (~ fits -> read_compressed_u32_at base p r = Ub misaligned).
Proof.
  intros [Hs Hp] E. pose proof Hs as Hl. unfold slice_ok in Hl. rewrite pow63 in Hl.
  assert (F : read_compressed_u32_at base p r = if (base + rpos r) mod (rpos r' - rpos r) =? 0 then Ok v r' else Ub misaligned).
  { unfold read_compressed_u32 in E. unfold read_compressed_u32_at.
    apply bind_inv_ok in E as (x & r1 & E1 & E). unfold bind at 1. rewrite E1.
    assert (r1 = r) as ->.
    { unfold pk in E1. apply bind_inv_ok in E1 as ([d|] & r2 & E2 & E1); [|discriminate E1]. injection E1 as _ <-. exact (peek_stays _ _ _ _ _ E2). }
    assert (K : forall n, n = 2 \/ n = 4 -> forall k, (forall x, (exists w, k x = ret w) \/ (exists w, k x = panic w)) ->
      (y <- rd_be p n blob_eof ;; k y) r = Ok v r' ->
      (y <- rd_be_at base p n blob_eof ;; k y) r = if (base + rpos r) mod (rpos r' - rpos r) =? 0 then Ok v r' else Ub misaligned).
    { intros n Hn k Hk H. apply bind_inv_ok in H as (y & r2 & H & H1). unfold rd_be in H. apply bind_inv_ok in H as ([d|] & r3 & H2 & H); [|discriminate H].
      injection H as <- <-. destruct (read_inv p n r d r3 Hs ltac:(rewrite pow64; lia) H2) as (_ & -> & _).
      unfold bind, rd_be_at, read_at. unfold bind. rewrite (typed_some _ _ _ _ _ _ H2).
      assert (r' = mkReader (rdata r) (rpos r + n)) as R.
      { destruct (Hk (be_dec d)) as [(w & W)|(w & W)]; rewrite W in H1; [injection H1; intros; now subst|discriminate H1]. }
      rewrite R at 1. cbn [rpos]. replace (rpos r + n - rpos r) with n by lia.
      destruct (_ =? 0); [exact H1|reflexivity]. }
    destruct (N.land x 0xc0 =? 0xc0).
    { apply K; [auto| |exact E]. intro y. destruct (u_sub p 32 y 3221225472); eauto. }
    destruct (N.land x 0x80 =? 0x80).
    { apply K; [auto| |exact E]. intro y. destruct (u_sub p 32 y 32768); eauto. }
    rewrite E. unfold rd in E. apply bind_inv_ok in E as ([d|] & r3 & E3 & E); [|discriminate E]. injection E as _ <-.
    destruct (read_inv p 1 r d r3 Hs ltac:(rewrite pow64; lia) E3) as (_ & -> & _). cbn [rpos].
    replace (rpos r + 1 - rpos r) with 1 by lia. now rewrite N.mod_1_r. }
  rewrite F. split.
  - intros ->. reflexivity.
  - intro H. destruct (N.eqb_spec ((base + rpos r) mod (rpos r' - rpos r)) 0); [contradiction|reflexivity].
Qed.
Example C87_compressed_example :
  read_compressed_u32 Debug (mkReader [x81; x00; x05] 0) = Ok 256 (mkReader [x81; x00; x05] 2) /\
  read_compressed_u32_at 6 Debug (mkReader [x81; x00; x05] 0) = Ok 256 (mkReader [x81; x00; x05] 2) /\
  read_compressed_u32_at 7 Debug (mkReader [x81; x00; x05] 0) = Ub misaligned.
Proof. repeat split; reflexivity. Qed.

Lemma len_literal us last : len us < 2 ^ 28 -> len (literal_bytes us last) = fst (hd (0, 0) (literal_parts us)) + 2 * len us + 1.
Proof.
  intro H. change (2 ^ 28) with 268435456 in H. unfold literal_bytes, literal_parts, number. cbn [hd fst]. rewrite !len_app, len_units.
  rewrite C14_encoding_length by (change (2 ^ 29) with 536870912; lia). change (2 ^ 7) with 128. change (2 ^ 14) with 16384.
  change (len [last]) with 1.
  destruct (N.ltb_spec (2 * len us + 1) 128), (N.ltb_spec (len us) 64); try lia.
  destruct (N.ltb_spec (2 * len us + 1) 16384), (N.ltb_spec (len us) 8192); lia.
Qed.
Lemma literal_run p base pre us last post :
  Forall (fun u => u < 2 ^ 16) us -> len us < 2 ^ 28 -> slice_ok (pre ++ literal_bytes us last ++ post) ->
  user_string_at base p (pre ++ literal_bytes us last ++ post) (len pre) =
    if suits_b (base + len pre) (literal_parts us) then Ok us tt else Ub misaligned.
Proof.
  intros Hu Hn Hs. change (2 ^ 28) with 268435456 in Hn. pose proof Hs as Hl. unfold slice_ok in Hl. rewrite pow63 in Hl.
  unfold user_string_at, blob_heap_reader_at.
  destruct (N.ltb_spec (len (pre ++ literal_bytes us last ++ post)) (len pre)) as [C|_]; [rewrite len_app in C; lia|].
  replace (skipn (N.to_nat (len pre)) (pre ++ literal_bytes us last ++ post)) with (literal_bytes us last ++ post).
  2:{ unfold len. rewrite Nat2N.id, skipn_app, skipn_all, Nat.sub_diag. reflexivity. }
  set (k := if len us <? 64 then 1 else if len us <? 8192 then 2 else 4).
  assert (Lc : len (compress (2 * len us + 1)) = k).
  { unfold k. rewrite C14_encoding_length by (change (2 ^ 29) with 536870912; lia). change (2 ^ 7) with 128. change (2 ^ 14) with 16384.
    destruct (N.ltb_spec (2 * len us + 1) 128), (N.ltb_spec (len us) 64); try lia.
    destruct (N.ltb_spec (2 * len us + 1) 16384), (N.ltb_spec (len us) 8192); lia. }
  assert (Hs2 : slice_ok (literal_bytes us last ++ post)).
  { unfold slice_ok. rewrite pow63. rewrite len_app in Hl. lia. }
  assert (P := parses_compress p (2 * len us + 1) ltac:(change (2 ^ 29) with 536870912; lia) [] ((units_le us ++ [last]) ++ post)).
  rewrite (app_assoc (compress _)) in P. change (compress (2 * len us + 1) ++ units_le us ++ [last]) with (literal_bytes us last) in P.
  cbn [app] in P. specialize (P Hs2). change (len (@nil byte)) with 0 in P. rewrite N.add_0_l, Lc in P.
  destruct (C87_compressed p _ _ _ (base + len pre) (conj Hs2 (N.le_0_l _) : in_bounds (mkReader (literal_bytes us last ++ post) 0)) P) as [F G].
  cbn [rpos] in F, G. rewrite N.sub_0_r, N.add_0_r in F, G.
  unfold literal_parts, number. fold k. cbn [suits_b]. rewrite andb_true_r.
  destruct (N.eqb_spec ((base + len pre) mod k) 0) as [A|A].
  2:{ rewrite (G A). reflexivity. }
  rewrite (F A). cbn [rpos andb].
  assert (Ll : len (literal_bytes us last ++ post) = k + (2 * len us + 1) + len post).
  { unfold literal_bytes. rewrite !len_app, Lc, len_units. change (len [last]) with 1. lia. }
  destruct (N.ltb_spec (len (literal_bytes us last ++ post)) (k + (2 * len us + 1))) as [C|_]; [rewrite Ll in C; lia|].
  assert (S : sub_list k (2 * len us + 1) (literal_bytes us last ++ post) = units_le us ++ [last]).
  { unfold literal_bytes. rewrite <- (app_assoc (compress _)). rewrite <- Lc.
    generalize (compress (2 * len us + 1)). intro c.
    replace (2 * len us + 1) with (len (units_le us ++ [last])) by (rewrite len_app, len_units; reflexivity). apply sub_list_app. }
  rewrite S.
  assert (Hs3 : slice_ok (units_le us ++ [last])).
  { unfold slice_ok. rewrite pow63, len_app, len_units. change (len [last]) with 1. rewrite len_app in Hl. lia. }
  pose proof (utf16_run p us [last] Hu ltac:(reflexivity) Hs3) as U.
  unfold read_utf16_str in U. unfold read_utf16_str_at. cbn [rdata] in *. cbv zeta in *.
  apply bind_inv_ok in U as ([d|] & r2 & U1 & U2); [|discriminate U2].
  unfold bind, read_array_at. rewrite (typed_some _ _ _ _ _ _ U1). cbn [rpos]. rewrite N.add_0_r.
  destruct ((base + len pre + k) mod 2 =? 0); [|reflexivity]. now rewrite U2.
Qed.

(** A literal is read correctly if its length and its code units are aligned, and the read is undefined
    otherwise. *)
Theorem C87_literal p base pre us last post :
  Forall (fun u => u < 2 ^ 16) us -> len us < 2 ^ 28 -> slice_ok (pre ++ literal_bytes us last ++ post) ->
  let run := user_string_at base p (pre ++ literal_bytes us last ++ post) (len pre) in
  (suits (base + len pre) (literal_parts us) -> run = Ok us tt) /\
  (~ suits (base + len pre) (literal_parts us) -> run = Ub misaligned).
Proof.
  intros Hu Hn Hs run. unfold run. rewrite literal_run by assumption.
  pose proof (suits_b_spec (literal_parts us) (base + len pre)) as B.
  destruct (suits_b (base + len pre) (literal_parts us)).
  - split; [reflexivity|]. intro H. exfalso. now apply H, B.
  - split; [|reflexivity]. intro H. apply B in H. discriminate H.
Qed.
Example C87_literal_example :
  let heap := [x00] ++ literal_bytes [104; 105] x00 ++ [] in
  user_string_at 4096 Debug heap 1 = Ok [104; 105] tt /\ user_string_at 4097 Debug heap 1 = Ub misaligned.
Proof. split; reflexivity. Qed.

(** "Literals are aligned" is false.  In a heap at an even address that starts, as heaps do, with an empty entry,
    the literals of up to 63 code units before all longer ones can be read, and the first longer one cannot. *)
Theorem C87_literals_refuted p base before us last post :
  base mod 2 = 0 -> Forall (fun l => len (fst l) < 64) before ->
  let front := x00 :: concat (map (fun l => literal_bytes (fst l) (snd l)) before) in
  Forall (fun u => u < 2 ^ 16) us -> len us < 2 ^ 28 -> slice_ok (front ++ literal_bytes us last ++ post) ->
  user_string_at base p (front ++ literal_bytes us last ++ post) (len front) =
    if len us <? 64 then Ok us tt else Ub misaligned.
Proof.
  intros Hb Hf front Hu Hn Hs. rewrite literal_run by assumption.
  assert (Lf : exists q, len front = 2 * q + 1).
  { unfold front. rewrite len_cons. clear - Hf. induction Hf as [|[l c] ls Hl _ (q & IH)]; [exists 0; reflexivity|].
    cbn [map concat fst snd]. cbn [fst] in Hl. rewrite len_app, len_literal by (change (2 ^ 28) with 268435456; lia).
    unfold literal_parts, number. rewrite (proj2 (N.ltb_lt _ _) Hl). cbn [hd fst]. exists (q + len l + 1). lia. }
  destruct Lf as (q & Lf).
  assert (Od : forall k, (base + len front + k) mod 2 = (k + 1) mod 2).
  { intro k. rewrite Lf. apply N.mod_divide in Hb; [|discriminate]. destruct Hb as (c & ->).
    replace (c * 2 + (2 * q + 1) + k) with (k + 1 + (c + q) * 2) by lia. rewrite N.mod_add; [reflexivity|discriminate]. }
  unfold literal_parts, number. cbn [suits_b]. rewrite andb_true_r, Od.
  destruct (N.ltb_spec (len us) 64) as [L|L].
  - rewrite N.mod_1_r. reflexivity.
  - destruct (N.ltb_spec (len us) 8192) as [L2|L2].
    + replace (base + len front) with (base + len front + 0) by lia. rewrite Od. reflexivity.
    + destruct (N.eqb_spec ((base + len front) mod 4) 0) as [D|D]; [|reflexivity]. cbn [andb]. reflexivity.
Qed.
Example C87_literals_refuted_example :
  let heap := [x00] ++ literal_bytes [104; 105] x00 ++ literal_bytes (repeat 97 64) x00 in
  len heap = 138 /\ user_string_at 4096 Debug heap 1 = Ok [104; 105] tt /\ user_string_at 4096 Debug heap 7 = Ub misaligned.
Proof. repeat split; reflexivity. Qed.

(** Wherever the heap is: of two neighbouring literals, the second with 64 or more code units, not both can be
    read. *)
Theorem C87_neighbours_refuted p base pre us1 last1 us2 last2 post :
  Forall (fun u => u < 2 ^ 16) us1 -> len us1 < 2 ^ 28 -> Forall (fun u => u < 2 ^ 16) us2 -> 64 <= len us2 -> len us2 < 2 ^ 28 ->
  let heap := pre ++ literal_bytes us1 last1 ++ literal_bytes us2 last2 ++ post in
  slice_ok heap ->
  user_string_at base p heap (len pre) = Ub misaligned \/
  user_string_at base p heap (len (pre ++ literal_bytes us1 last1)) = Ub misaligned.
Proof.
  intros Hu1 Hn1 Hu2 Hg2 Hn2 heap Hs.
  assert (R1 : user_string_at base p heap (len pre) = if suits_b (base + len pre) (literal_parts us1) then Ok us1 tt else Ub misaligned).
  { unfold heap. now apply literal_run. }
  assert (R2 : user_string_at base p heap (len (pre ++ literal_bytes us1 last1)) =
    if suits_b (base + len (pre ++ literal_bytes us1 last1)) (literal_parts us2) then Ok us2 tt else Ub misaligned).
  { unfold heap in *. rewrite (app_assoc pre) in *. now apply literal_run. }
  rewrite R1, R2. rewrite len_app, len_literal by exact Hn1. unfold literal_parts, number. cbn [hd fst suits_b].
  set (a := base + len pre). set (k := if len us1 <? 64 then 1 else if len us1 <? 8192 then 2 else 4).
  destruct (a mod k =? 0); cbn [andb]; [|now left].
  destruct (N.eqb_spec ((a + k) mod 2) 0) as [A|A]; cbn [andb]; [|now left]. right.
  assert (B : (base + (len pre + (k + 2 * len us1 + 1))) mod 2 = 1).
  { apply N.mod_divide in A; [|discriminate]. destruct A as (c & A).
    replace (base + (len pre + (k + 2 * len us1 + 1))) with (1 + (c + len us1) * 2) by (unfold a in A; lia). rewrite N.mod_add; [reflexivity|discriminate]. }
  destruct (N.ltb_spec (len us2) 64) as [L|_]; [lia|]. destruct (len us2 <? 8192).
  - rewrite B. reflexivity.
  - destruct (N.eqb_spec ((base + (len pre + (k + 2 * len us1 + 1))) mod 4) 0) as [C|C]; [|reflexivity].
    apply (mod_weaken _ 2 2) in C; [congruence|discriminate|discriminate].
Qed.
Example C87_neighbours_refuted_example : len [x00] + 1 = 2 /\ 64 <= len (repeat 97 64) /\
  user_string_at 4095 Debug ([x00] ++ literal_bytes [104; 105] x00 ++ literal_bytes (repeat 97 64) x00 ++ []) 7 = Ok (repeat 97 64) tt /\
  user_string_at 4095 Debug ([x00] ++ literal_bytes [104; 105] x00 ++ literal_bytes (repeat 97 64) x00 ++ []) 1 = Ub misaligned.
Proof. split; [reflexivity|]. split; [vm_compute; discriminate|]. split; reflexivity. Qed.

(** ** Nothing else *)

Lemma guards_stream base p : guards (read_table_stream_at base p) (read_table_stream p).
Proof.
  unfold read_table_stream_at, read_table_stream.
  cbv zeta. simple apply guards_bind; [apply guards_refl|intro]. simple apply guards_bind; [apply guards_rd|intro].
  simple apply guards_bind; [apply guards_refl|intro]. simple apply guards_bind; [apply guards_refl|intro].
  simple apply guards_bind; [apply guards_rd|intro]. simple apply guards_bind; [apply guards_rd|intro].
  simple apply guards_bind; [apply guards_typed|intro]. simple apply guards_bind; [apply guards_refl|intro].
  apply guards_read_tables.
Qed.
Lemma guards_pe base p : guards (parse_pe_m_at base p) (parse_pe_m p).
Proof. unfold parse_pe_m_at, parse_pe_m. gd. Qed.

(** Whatever the bytes are: at an address the readers do what they do elsewhere in this model, or the read is
    undefined.  So they also fail and stop in the same cases, unless an address spoils it before. *)
Theorem C87_nothing_else base p :
  (forall data, parse_pe_at base p data = parse_pe p data \/ parse_pe_at base p data = Ub misaligned) /\
  (forall r, read_table_stream_at base p r = read_table_stream p r \/ read_table_stream_at base p r = Ub misaligned) /\
  (forall r, read_compressed_u32_at base p r = read_compressed_u32 p r \/ read_compressed_u32_at base p r = Ub misaligned) /\
  (forall r, read_utf16_str_at base p r = read_utf16_str p r \/ read_utf16_str_at base p r = Ub misaligned).
Proof.
  split; [|split; [|split]].
  - intro data. apply guards_pe.
  - apply guards_stream.
  - change (guards (read_compressed_u32_at base p) (read_compressed_u32 p)). unfold read_compressed_u32_at, read_compressed_u32, rd_be_at, rd_be. gd.
  - intro r. unfold read_utf16_str_at, read_utf16_str. cbv zeta. apply guards_bind; [apply guards_typed|intro; apply guards_refl].
Qed.
Example C87_nothing_else_example : read_compressed_u32_at 7 Debug (mkReader [x81] 0) = Err blob_eof (mkReader [x81] 0) /\
  parse_pe_at 7 Debug [x4d] = Err "Not a PE file" (mkReader [x4d] 0).
Proof. split; reflexivity. Qed.

(** ** Bytes that are not values: C88 *)

(** A truth value is read correctly if the byte is 0 or 1, and the read is undefined otherwise. *)
Theorem C88_truth_value_partial p pre b rest : slice_ok (pre ++ b :: rest) ->
  let r := mkReader (pre ++ b :: rest) (len pre) in
  (b = x00 -> read_bool p r = Ok (Some false) (mkReader (pre ++ b :: rest) (len pre + 1))) /\
  (b = x01 -> read_bool p r = Ok (Some true) (mkReader (pre ++ b :: rest) (len pre + 1))) /\
  (b <> x00 -> b <> x01 -> exists why, read_bool p r = Ub why).
Proof.
  intros Hs r. pose proof Hs as Hl. unfold slice_ok in Hl. rewrite pow63 in Hl. rewrite len_app, len_cons in Hl.
  assert (P : peek p 1 r = Ok (Some [b]) r).
  { unfold r. rewrite peek_ok; [|exact Hs|cbn [rdata rpos]; rewrite len_app, len_cons; lia]. cbn [rdata rpos].
    change (b :: rest) with ([b] ++ rest). change 1 with (len [b]). now rewrite sub_list_app. }
  assert (A : advance p 1 r = Ok true (mkReader (pre ++ b :: rest) (len pre + 1))).
  { unfold r. rewrite advance_ok by (cbn [rpos]; rewrite pow64; lia). cbn [rdata rpos].
    rewrite (proj2 (N.leb_le _ _)); [reflexivity|rewrite len_app, len_cons; lia]. }
  unfold read_bool, peek_bool, bind. rewrite P. cbn [le_dec]. rewrite N.mul_0_r, N.add_0_r.
  split; [|split].
  - intros ->. cbn [N.eqb]. change (bn x00 =? 0) with true. cbn [ret]. now rewrite A.
  - intros ->. change (bn x01 =? 0) with false. change (bn x01 =? 1) with true. cbn [ret]. now rewrite A.
  - intros H0 H1. destruct (N.eqb_spec (bn b) 0) as [E|_]; [elim H0; apply bn_inj; exact E|].
    destruct (N.eqb_spec (bn b) 1) as [E|_]; [elim H1; apply bn_inj; exact E|]. eexists. reflexivity.
Qed.
Example C88_truth_value_example : slice_ok ([x09] ++ x01 :: [x02]) /\
  read_bool Debug (mkReader [x09; x01; x02] 1) = Ok (Some true) (mkReader [x09; x01; x02] 2).
Proof. split; reflexivity. Qed.

(** "Whatever the bytes are, a read is defined" is false: a byte other than 0 and 1 is not a truth value. *)
Theorem C88_truth_value_refuted : exists why,
  read_bool Debug (mkReader [x02] 0) = Ub why /\ read_bool Release (mkReader [x02] 0) = Ub why.
Proof. eexists. split; reflexivity. Qed.

(** A character is read correctly if its address is a multiple of 4 and the number is a Unicode scalar value,
    and the read is undefined otherwise. *)
Theorem C88_character_partial base p pre c rest : c < 2 ^ 32 -> slice_ok (pre ++ le_enc 4 c ++ rest) ->
  let data := pre ++ le_enc 4 c ++ rest in
  let fits := (base + len pre) mod 4 = 0 /\ scalar_value c in
  (fits -> read_char base p (mkReader data (len pre)) = Ok (Some c) (mkReader data (len pre + 4))) /\
  (~ fits -> exists why, read_char base p (mkReader data (len pre)) = Ub why).
Proof.
  intros Hc Hs data fits. pose proof Hs as Hl. unfold slice_ok in Hl. rewrite pow63 in Hl. rewrite !len_app, len_le_enc in Hl. change (N.of_nat 4) with 4 in Hl.
  set (r := mkReader data (len pre)).
  assert (P : peek p 4 r = Ok (Some (le_enc 4 c)) r).
  { unfold r, data. rewrite peek_ok; [|exact Hs|cbn [rdata rpos]; rewrite !len_app, len_le_enc; change (N.of_nat 4) with 4; lia]. cbn [rdata rpos].
    change 4 with (len (le_enc 4 c)) at 1. now rewrite sub_list_app. }
  assert (A : advance p 4 r = Ok true (mkReader data (len pre + 4))).
  { unfold r, data. rewrite advance_ok by (cbn [rpos]; rewrite pow64; lia). cbn [rdata rpos].
    rewrite (proj2 (N.leb_le _ _)); [reflexivity|rewrite !len_app, len_le_enc; change (N.of_nat 4) with 4; lia]. }
  assert (D : le_dec (le_enc 4 c) = c) by (apply le_dec_enc; exact Hc).
  unfold read_char, peek_char, bind, peek_at. rewrite (typed_some _ _ _ _ _ _ P). change (rpos r) with (len pre).
  unfold fits, scalar_value. destruct (N.eqb_spec ((base + len pre) mod 4) 0) as [M|M].
  2:{ split; [intros [H _]; contradiction|]. intros _. eexists. reflexivity. }
  rewrite D. destruct (N.ltb_spec c 55296) as [L1|L1]; cbn [orb].
  { split; [|intro H; elim H; auto]. intros _. cbn [ret]. now rewrite A. }
  destruct (N.ltb_spec 57343 c) as [L2|L2], (N.ltb_spec c 1114112) as [L3|L3]; cbn [andb].
  - split; [|intro H; elim H; split; [exact M|lia]]. intros _. cbn [ret]. now rewrite A.
  - split; [intros [_ H]; lia|]. intros _. eexists. reflexivity.
  - split; [intros [_ H]; lia|]. intros _. eexists. reflexivity.
  - split; [intros [_ H]; lia|]. intros _. eexists. reflexivity.
Qed.
Example C88_character_example : slice_ok ([x00; x00; x00; x00] ++ le_enc 4 0x1f600 ++ []) /\
  read_char 4096 Debug (mkReader ([x00; x00; x00; x00] ++ le_enc 4 0x1f600 ++ []) 4) =
    Ok (Some 0x1f600) (mkReader ([x00; x00; x00; x00] ++ le_enc 4 0x1f600 ++ []) 8).
Proof. split; reflexivity. Qed.

(** "Whatever the bytes are, a read is defined" is false: a surrogate is not a character, even if aligned. *)
Theorem C88_character_refuted : exists why, forall p,
  read_char 4096 p (mkReader (le_enc 4 0xd800) 0) = Ub why.
Proof. eexists. intros []; reflexivity. Qed.

Print Assumptions C87_row.
Print Assumptions C87_stream.
Print Assumptions C87_rows_refuted.
Print Assumptions C87_usual_refuted.
Print Assumptions C87_headers.
Print Assumptions C87_compressed.
Print Assumptions C87_literal.
Print Assumptions C87_literals_refuted.
Print Assumptions C87_neighbours_refuted.
Print Assumptions C87_nothing_else.
Print Assumptions C88_truth_value_partial.
Print Assumptions C88_truth_value_refuted.
Print Assumptions C88_character_partial.
Print Assumptions C88_character_refuted.
